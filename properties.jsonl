{"id": "C01", "title": "Event wire round trip, exactly", "statement": "Event::into_bytes followed by Event::from_async_read gives back an event with the same id, type, reference id, namespace, name and data, and leaves every following byte unread, if and only if the encoded header is at most 65535 bytes long and the namespace is not Some(\"\") (which comes back as None). Outside that domain into_bytes still answers Ok, so the loss is silent.", "quantifier": "every event (any id, type, reference, UTF-8 namespace/name, payload) and every suffix of following bytes", "why_tests_cant": "names, namespaces and payloads have unbounded length; the u16 wrap only shows beyond 64 KiB headers", "anchors": ["src/events/event.rs: Event::into_bytes, Event::from_async_read, EventHeader::into_bytes, EventHeader::from_read"]}
{"id": "C02", "title": "A stream of events is self-delimiting", "statement": "Any number of encoded events written back to back is read as exactly that list of events, in order, nothing left over; no encoding is a proper prefix of another one.", "quantifier": "every finite list of representable events", "why_tests_cant": "unbounded lists; framing errors only show in particular combinations of lengths", "anchors": ["src/events/event.rs: Event::into_bytes, Event::from_async_read", "src/ipc/mod.rs: handle_connection"]}
{"id": "C03", "title": "A truncated event is never delivered", "statement": "If the connection closes after a strict prefix of an encoded event, reading reports the UnexpectedEof I/O error; it never yields an event and never crashes.", "quantifier": "every representable event and every cut position", "why_tests_cant": "there is one crash point per byte of every event", "anchors": ["src/events/event.rs: Event::from_async_read"]}
{"id": "C04", "title": "Reading does not depend on how the transport chops the bytes", "statement": "Event::from_async_read over a plain byte transport gives the same result and consumes the same bytes for every split of the byte stream into reads and every placement of not-ready polls; a partly received event just waits.", "quantifier": "every byte stream, every chunking, every schedule of Pending polls", "why_tests_cant": "the number of chunkings and poll schedules is exponential and decided by the kernel", "anchors": ["src/events/event.rs: Event::from_async_read"]}
{"id": "C05", "title": "Version gate", "statement": "A frame whose format version has a major number other than 0 is refused with UnsupportedVersion carrying the text 'a.b.c' of the received version and yields no event; minor and patch numbers never influence the decoded event.", "quantifier": "every version triple and every frame", "why_tests_cant": "2^24 versions times all frames", "anchors": ["src/events/event.rs: EventHeader::read_version", "src/error.rs: Error::unsupported_version_vec"]}
{"id": "C06", "title": "Appended header fields are ignored", "statement": "Bytes appended to the header (with the two length fields increased accordingly) do not change the decoded event, as the specification promises for backwards compatibility.", "quantifier": "every representable event and every appended byte string that keeps the header below 64 KiB", "why_tests_cant": "unbounded set of extensions", "anchors": ["src/events/event.rs: EventHeader::from_read", "SPECIFICATON.md: Header"]}
{"id": "C07", "title": "Only well formed events are accepted", "statement": "Whatever bytes a peer sends, an event handed to the application has a 64 bit id, one of the four event types, valid UTF-8 name and namespace (in the sense of the Unicode definition), a non-empty namespace if any; unknown type bytes, reference markers other than 0x00/0xFF and invalid UTF-8 give CorruptedEvent. Re-encoding an accepted event and reading it again gives the same event.", "quantifier": "every byte string", "why_tests_cant": "adversarial inputs", "anchors": ["src/events/event.rs: EventHeader::from_read, read_ref_id, read_string, read_namespace"]}
{"id": "C08", "title": "When reading crashes", "statement": "Event::from_async_read ends in a panic or allocation failure instead of an error exactly when the frame announces a total length below the header length (in builds with overflow checks immediately, otherwise after a valid header), or a data length above isize::MAX or above the memory available. In every other case it returns an event or an error. Hence 'no input can crash the reader' is false.", "quantifier": "every byte string, both overflow-check settings, every memory limit", "why_tests_cant": "the crash set is a tiny corner of the input space", "anchors": ["src/events/event.rs: Event::from_async_read"]}
{"id": "C09", "title": "Memory requested by the reader", "statement": "Apart from the payload buffer, no buffer the reader requests for an event exceeds 65535 bytes and there are at most four of them (header, version, namespace, name); the payload buffer is requested at the announced size (wrapped if the announced total is below the header length) before any payload byte arrived, so the claim 'allocation is bounded by the bytes received' is false: a 27 byte message can request any size up to isize::MAX.", "quantifier": "every byte string", "why_tests_cant": "resource bounds over all inputs", "anchors": ["src/events/event.rs: Event::from_async_read"]}
{"id": "C10", "title": "Wire layout", "statement": "An encoded event is, in this order and big endian: u64 (header+data length), u16 header length, version 0.9.0, u64 id, u8 event type, u8 0xFF and u64 reference or u8 0x00, u16 namespace length and namespace, u16 name length and name, data. This differs for every event from the header table in SPECIFICATON.md, which has no event type byte: no header the crate writes is the documented encoding of that header.", "quantifier": "every representable event", "why_tests_cant": "documentation conformance over all events", "anchors": ["src/events/event.rs: EventHeader::into_bytes, FORMAT_VERSION", "SPECIFICATON.md: Header"]}
{"id": "C11", "title": "Event constructors", "statement": "Event::initiator, response, error set the event type and reference id their documentation promises and store namespace, name and data unchanged; Event::end, documented to mark the end of a series of responses, produces a Response event and never an End event.", "quantifier": "every namespace, name, data and reference id", "why_tests_cant": "quantifies over all arguments; the tests never call Event::end", "anchors": ["src/events/event.rs: Event::initiator, response, error, end, new"]}
{"id": "C12", "title": "Event ids are unique within a process", "statement": "The first 2^32 events a process creates all have different ids, whatever the wall clock does (including going backwards) and however threads interleave; from event 2^32 on two events can get the same id.", "quantifier": "every clock history and every pair of events", "why_tests_cant": "needs 2^32 events and arbitrary clocks", "anchors": ["src/events/mod.rs: generate_event_id"]}
{"id": "C13", "title": "Event ids are not unique across processes", "statement": "Two processes can generate the same id: ids depend only on the second (mod 65535), the millisecond and the per-process counter. Ids of two processes differ whenever they were created in different milliseconds of the same 65535 s cycle (below 2^32 events).", "quantifier": "every pair of clocks and counters", "why_tests_cant": "depends on clock coincidence of two processes", "anchors": ["src/events/mod.rs: generate_event_id"]}
{"id": "C14", "title": "Raw payloads arrive unchanged", "statement": "A BytePayload emitted on one side is received by event.payload::<BytePayload>() as exactly the same bytes.", "quantifier": "every byte string", "why_tests_cant": "unbounded payloads", "anchors": ["src/events/payload.rs: BytePayload"]}
{"id": "C15", "title": "Tandem payload round trip", "statement": "If two payload types each survive encoding and decoding, so does their TandemPayload, to any nesting depth; each inner decoder sees exactly the bytes its partner wrote, and trailing bytes are ignored.", "quantifier": "every pair (and nesting) of payloads", "why_tests_cant": "unbounded lengths and nesting", "anchors": ["src/events/payload.rs: TandemPayload"]}
{"id": "C16", "title": "Malformed tandem payloads", "statement": "Decoding a TandemPayload succeeds only if both announced lengths fit in the received bytes and both parts decode; otherwise it is an error, or a crash exactly when an announced length that is reached exceeds isize::MAX or the available memory.", "quantifier": "every byte string", "why_tests_cant": "adversarial inputs", "anchors": ["src/events/payload.rs: TandemPayload::from_payload"]}
{"id": "C17", "title": "Error payload round trip", "statement": "ErrorEventData (code and message) survives encoding and decoding unchanged if the message is shorter than 4 GiB; every accepted error payload has a valid UTF-8 message, shorter input is UnexpectedEof, bad UTF-8 is CorruptedEvent.", "quantifier": "every code, message and byte string", "why_tests_cant": "unbounded messages, adversarial inputs", "anchors": ["src/events/error_event.rs: ErrorEventData"]}
{"id": "C18", "title": "Serde payload round trip across differing defaults", "statement": "A value serialized with any enabled format is read back by any peer that has this format enabled, whatever default serializer either side configured, provided the format library round-trips that value.", "quantifier": "every value, format, sender and receiver configuration", "why_tests_cant": "the configuration matrix times all values", "anchors": ["src/events/payload.rs: SerdePayload", "src/events/payload_serializer/mod.rs: DynamicSerializer", "src/ipc/context.rs: Context::create_serde_payload"]}
{"id": "C19", "title": "Unknown or disabled formats are refused", "statement": "A serde payload whose format byte is not 0..3 or names a format not compiled in is refused with UnknownFormat of that number, and an empty payload with UnexpectedEof; serializing with a disabled format, and using a disabled serializer directly in either direction, gives UnavailableFormat; the format library is never run in these cases. The default format is the first enabled of messagepack, bincode, postcard, json.", "quantifier": "every byte string and every feature set", "why_tests_cant": "every feature combination needs its own build", "anchors": ["src/events/payload_serializer/mod.rs: DynamicSerializer::from_primitive, serialize, deserialize, first_available", "src/events/payload.rs: SerdePayload::from_payload"]}
{"id": "C20", "title": "Nonces are not reused within one direction", "statement": "One side of an encrypted connection never encrypts two packages with the same nonce under the session key, for the first 2^64 packages; distinct counter values give distinct 12 byte nonces.", "quantifier": "every pair of packages of one direction", "why_tests_cant": "2^64 packages", "anchors": ["src/protocol/encrypted/crypt_handling.rs: nonce_from_number, CipherBox::en_nonce"]}
{"id": "C21", "title": "Nonces are reused between the two directions", "statement": "Both directions of a connection use the same key and both count from 0, so the claim 'a (key, nonce) pair is used for one package only' is false on every connection where both sides send.", "quantifier": "every established connection on which both sides sent at least one package", "why_tests_cant": "needs reasoning about all key/nonce pairs of both endpoints", "anchors": ["src/protocol/encrypted/crypt_handling.rs: CipherBox", "src/protocol/encrypted/mod.rs: EncryptedStream::update_key"]}
{"id": "C22", "title": "Encrypted connection delivers the events unchanged", "statement": "Events emitted through an encrypted stream are read by the peer as exactly the same events in order, whatever way the underlying transport splits, delays and partially accepts bytes, if each encoded event is below 2^32-16 bytes; the reader never hangs or crashes on them.", "quantifier": "every list of events, every schedule of partial writes, partial reads and Pending polls on both sides", "why_tests_cant": "unbounded schedules", "anchors": ["src/protocol/encrypted/io_impl.rs: poll_write, poll_flush, poll_read, write_bytes, read_bytes", "src/protocol/encrypted/mod.rs: EncryptedPackage"]}
{"id": "C23", "title": "Tampering, reordering, replay and loss are detected within a direction", "statement": "If a man in the middle alters, drops, repeats, reorders or injects packages of one direction (and cannot forge the cipher), the bytes accepted by the receiver are those of a prefix of the packages sent, and the first deviating package ends the connection with InvalidData.", "quantifier": "every adversarial package sequence", "why_tests_cant": "adversarial schedules", "anchors": ["src/protocol/encrypted/crypt_handling.rs: CipherBox::decrypt", "src/protocol/encrypted/io_impl.rs: read_bytes"]}
{"id": "C24", "title": "Reflected packages are accepted", "statement": "The claim 'an accepted package was produced by the peer' is false: a package a side sent itself, reflected by the network, is decrypted and accepted when the counters match (for example the first package after the handshake).", "quantifier": "every established connection and every first package", "why_tests_cant": "needs an active attacker", "anchors": ["src/protocol/encrypted/crypt_handling.rs: CipherBox", "src/protocol/encrypted/mod.rs: EncryptedStream::new"]}
{"id": "C25", "title": "The encrypted writer loses and duplicates nothing", "statement": "For any sequence of writes and flushes, each polled to completion, the packages put on the transport decrypt, in nonce order, to exactly the bytes written up to the last flush (or last transmission), the rest being held in the buffer; after a flush of less than 2^32 buffered bytes the buffer is empty.", "quantifier": "every sequence of writes and flushes, every behaviour of the inner transport without error", "why_tests_cant": "unbounded sequences and schedules", "anchors": ["src/protocol/encrypted/io_impl.rs: EncryptedWriteStream::poll_write, poll_flush"]}
{"id": "C26", "title": "Cancelling an encrypted write can lose later data", "statement": "If a write is dropped while the transport is busy, the next write reports success although its bytes are neither transmitted nor buffered, and a flush instead of a write panics; if a flush is dropped, the next message and its flush report success while the message is still in the buffer. So 'bytes reported as written and flushed are transmitted' fails under cancellation.", "quantifier": "every pending write and every following write", "why_tests_cant": "needs cancellation at a particular poll", "anchors": ["src/protocol/encrypted/io_impl.rs: EncryptedWriteStream::poll_write, poll_flush"]}
{"id": "C27", "title": "Package length field", "statement": "A package of a ciphertext below 2^32 bytes is read back as that ciphertext with the rest of the stream untouched; the writer may produce plaintexts up to 2^32-1 bytes whose ciphertext needs up to 15 more than the u32 length field can hold, and then the announced length is wrong by 2^32.", "quantifier": "every ciphertext and every plaintext length", "why_tests_cant": "needs 4 GiB packages", "anchors": ["src/protocol/encrypted/mod.rs: EncryptedPackage", "src/protocol/encrypted/io_impl.rs: WRITE_BUF_SIZE, poll_write"]}
{"id": "C28", "title": "Reads across package boundaries", "statement": "A read that asks for no more than the current package holds is served exactly, without touching the transport. A read that asks for more than a package holds consumes the package and then waits without anyone arranging a wake-up; if the next package is not there yet when an integer read straddles two packages, the bytes of the first are lost and the number read is wrong, while a read into a buffer keeps them.", "quantifier": "every package sequence and read sequence", "why_tests_cant": "depends on alignment of reads and packages and on poll schedule", "anchors": ["src/protocol/encrypted/io_impl.rs: EncryptedReadStream::poll_read"]}
{"id": "C29", "title": "After a failed encrypted read", "statement": "Polling an encrypted read half again after it returned an error panics; bromine's receive loop never does, it stops at the first error.", "quantifier": "every stream state after an error", "why_tests_cant": "needs an error at an arbitrary point", "anchors": ["src/protocol/encrypted/io_impl.rs: EncryptedReadStream::poll_read", "src/ipc/mod.rs: handle_connection"]}
{"id": "C30", "title": "Key exchange agreement", "statement": "When client and server run the key exchange with each other over a reliable transport and each accepts the other's key, both end with the same session key (the secret chosen by the server), all four counters at zero, and no unread or unsent bytes.", "quantifier": "every pair of key pairs, every session secret, every schedule of the transport", "why_tests_cant": "all keys and schedules", "anchors": ["src/protocol/encrypted/crypt_handling.rs: from_server_key_exchange, from_client_key_exchange, update_key"]}
{"id": "C31", "title": "Unknown peers are refused", "statement": "With allow_unknown = false a side completes the exchange only with a peer key listed in known_peers and otherwise answers UnknownPeer; the server has then sent nothing, not even its public key. With the default options (no known peers) every peer is refused.", "quantifier": "every key, peer list and peer behaviour", "why_tests_cant": "all keys and lists", "anchors": ["src/protocol/encrypted/crypt_handling.rs: from_server_key_exchange, from_client_key_exchange", "src/protocol/encrypted/mod.rs: EncryptionOptions::default"]}
{"id": "C32", "title": "One failed connection attempt ends the server", "statement": "The accept loop serves exactly the connections accepted before the first failing accept; with the encrypted listener a refused or broken key exchange is such a failure, so one unknown peer makes build_server return Ok(()) and no later client is ever served.", "quantifier": "every sequence of connection attempts", "why_tests_cant": "needs all histories of connection attempts", "anchors": ["src/ipc/server.rs: IPCServer::start", "src/protocol/encrypted/protocol_impl.rs: protocol_accept"]}
{"id": "C33", "title": "Where a received event goes", "statement": "Every received event goes to exactly one place: if it references an id with a registered reply listener, to that listener (if the listener's receiver is gone, to the global handler); otherwise an End event is dropped; otherwise, if its namespace is registered, to that namespace's handler; otherwise to the global handler.", "quantifier": "every event, listener table, namespace table and schedule", "why_tests_cant": "all combinations of tables and events", "anchors": ["src/ipc/mod.rs: handle_connection"]}
{"id": "C34", "title": "Events for unknown namespaces", "statement": "SPECIFICATON.md promises that an event for an unregistered namespace is ignored; the implementation calls the global handler of that event name instead.", "quantifier": "every event with an unregistered namespace", "why_tests_cant": "the tests never send to an unregistered namespace", "anchors": ["src/ipc/mod.rs: handle_connection", "SPECIFICATON.md: Receiving namespaced events"]}
{"id": "C35", "title": "Registration: the last handler wins", "statement": "After any sequence of registrations, the handler called for a name is the last one registered for that name in that scope, other names and scopes are unaffected, re-adding a namespace replaces it entirely, and only the global scope has a predefined 'error' handler.", "quantifier": "every sequence of registrations and every name", "why_tests_cant": "unbounded sequences", "anchors": ["src/events/event_handler.rs: EventHandler::on, handle_event", "src/ipc/builder.rs: IPCBuilder::on, add_namespace, new", "src/namespaces/builder.rs: NamespaceBuilder"]}
{"id": "C36", "title": "Exactly one final answer per handled event", "statement": "For every event passed to a handler (registered or not) that returns, the framework sends exactly one final event referencing its id, after everything the handler emitted: an End event with the response bytes if the handler returned Ok (empty if there is no handler), an Error event with code 500 if it returned an error; none is sent before the handler returned.", "quantifier": "every handler behaviour, input and schedule (without write errors)", "why_tests_cant": "all handlers and interleavings", "anchors": ["src/ipc/mod.rs: handle_event", "src/events/event_handler.rs: handle_event"]}
{"id": "C37", "title": "What a handler emits is a reply to its event", "statement": "Every event emitted through the context given to a handler is a Response referencing the id of the event being handled, and every event emitted through a client's own context is an Initiator without reference.", "quantifier": "every handler, input and schedule", "why_tests_cant": "all handlers and interleavings", "anchors": ["src/ipc/context.rs: Context::emit, emit_to, set_ref_id", "src/ipc/stream_emitter/mod.rs: StreamEmitter"]}
{"id": "C38", "title": "A reply belongs to its request", "statement": "If await_reply completes with an event, or stream_replies yields one, that event references the id of the event that was emitted, whatever the peer sends; an Error reply to await_reply is reported as Err(ErrorEvent) with the peer's code and message.", "quantifier": "every peer behaviour, schedule and number of concurrent requests", "why_tests_cant": "adversarial peers and interleavings", "anchors": ["src/ipc/stream_emitter/emit_metadata_with_response.rs: poll", "src/ipc/mod.rs: handle_connection"]}
{"id": "C39", "title": "No reply is missed", "statement": "From before the request's first byte is sent until await_reply or the stream finishes, every received event referencing the request is delivered to that request's listener and not to an event handler, provided less than 2^32 events were created and no received event carries an id created locally.", "quantifier": "every schedule and peer behaviour", "why_tests_cant": "a race between registration and reply", "anchors": ["src/ipc/stream_emitter/emit_metadata_with_response.rs: poll", "src/ipc/context.rs: register_reply_listener, get_reply_sender"]}
{"id": "C40", "title": "A peer event with a colliding id cancels a pending request", "statement": "When a handler for an event with id x completes, the local reply listener registered under x is removed, although x was created by the peer; a pending await_reply with that id then fails with SendError and its reply is handled as an unsolicited event. So requests are not isolated from the peer's choice of ids.", "quantifier": "every pending request", "why_tests_cant": "needs id collision or a hostile peer", "anchors": ["src/ipc/mod.rs: handle_event"]}
{"id": "C41", "title": "Listeners are unregistered when a request finishes, except on failure", "statement": "After await_reply returned a reply or an error event, and after a stream delivered its End event, no listener for that request remains; after a timeout, a write error or a dropped request or stream the listener stays registered for the life of the connection.", "quantifier": "every history", "why_tests_cant": "leak over unbounded histories", "anchors": ["src/ipc/stream_emitter/emit_metadata_with_response.rs: poll", "src/ipc/stream_emitter/emit_metadata_with_response_stream.rs: poll_next"]}
{"id": "C42", "title": "Reply streams preserve order and end at End", "statement": "A reply stream yields exactly the events received for its request, each once, in the order received, up to and including the first End event, then nothing more.", "quantifier": "every peer behaviour and schedule", "why_tests_cant": "unbounded streams and interleavings", "anchors": ["src/ipc/stream_emitter/emit_metadata_with_response_stream.rs: ResponseStream::poll_next", "src/ipc/context.rs: register_reply_listener"]}
{"id": "C43", "title": "Reply streams after an error", "statement": "An Error reply is yielded as an ordinary Ok item and does not end the stream: the next item is only ever a Timeout (the failing handler sends nothing else); after a timeout the stream is unusable, polling it again panics.", "quantifier": "every failing handler", "why_tests_cant": "needs failing handlers and timers", "anchors": ["src/ipc/stream_emitter/emit_metadata_with_response_stream.rs: ResponseStream::poll_next"]}
{"id": "C44", "title": "Bounded reply buffering and head-of-line blocking", "statement": "At most 8 undelivered replies are buffered per request; when a ninth arrives the receive loop of the connection stops, so no further event of that connection is processed until the stream is read or dropped.", "quantifier": "every history", "why_tests_cant": "liveness over all schedules", "anchors": ["src/ipc/context.rs: register_reply_listener", "src/ipc/mod.rs: handle_connection"]}
{"id": "C45", "title": "Replies to abandoned requests", "statement": "A reply to a request whose receiver was dropped (timeout, dropped stream) is passed to the global handler even if it is an End event or names a registered namespace.", "quantifier": "every reply to an abandoned request", "why_tests_cant": "race between timeout and reply", "anchors": ["src/ipc/mod.rs: handle_connection"]}
{"id": "C46", "title": "Cascades of automatic answers end, unless error handlers fail", "statement": "With the predefined error handler on both sides, an event exchange in which user handlers emit nothing comes to rest: every event leads to at most two further events. If both sides register error handlers that fail, one failing event makes the two sides exchange Error events forever.", "quantifier": "every initial set of events and every schedule", "why_tests_cant": "non-termination", "anchors": ["src/ipc/mod.rs: handle_event", "src/ipc/builder.rs: IPCBuilder::new"]}
{"id": "C47", "title": "Concurrent emits do not interleave", "statement": "However many tasks emit on one connection and however they are scheduled, the bytes on the connection are always the concatenation of complete encodings of finished emits, in the order the tasks got the connection, plus a prefix of at most one unfinished; a cancelled emit can leave a partial event in the stream, after which the peer misreads all following events.", "quantifier": "every number of tasks, every schedule, every partial write", "why_tests_cant": "exponential interleavings", "anchors": ["src/ipc/stream_emitter/emit_metadata.rs: EmitMetadata::poll", "src/ipc/stream_emitter/mod.rs: SendStream"]}
{"id": "C48", "title": "Emitting is lazy and failing payloads send nothing", "statement": "Nothing is sent, no id is created and no listener registered until the emit future is first polled; if the payload fails to serialize, the error is returned, nothing is sent and no listener is registered; the event id that await_reply listens on is the id of the event sent.", "quantifier": "every payload and every poll sequence", "why_tests_cant": "all poll sequences", "anchors": ["src/ipc/stream_emitter/event_metadata.rs: EventMetadata", "src/ipc/stream_emitter/emit_metadata.rs: poll"]}
{"id": "C49", "title": "Pool accounting", "statement": "In any history of acquiring, cloning and dropping guards and cloning and dropping pools, the use count of a connection is the number of live guards for it minus one, never underflows while any guard lives, and acquire returns a connection whose count is minimal (the first such); without releases, counts of connections never differ by more than one.", "quantifier": "every history of operations and every pool size", "why_tests_cant": "unbounded histories", "anchors": ["src/ipc/context.rs: PoolGuard, PooledContext::acquire"]}
{"id": "C50", "title": "Building", "statement": "build_server, build_client and build_pooled_client fail with BuildError, before any connection attempt, when no address was set (and for pool size 0); a pooled client holds exactly pool_size contexts or fails with the first connection error; build_server fails with the error of the bind and otherwise ends as its accept loop does; acquire never panics on a built pool.", "quantifier": "every builder call sequence, pool size and connection behaviour", "why_tests_cant": "all sequences", "anchors": ["src/ipc/builder.rs: validate, build_client, build_server, build_pooled_client"]}
{"id": "C51", "title": "Stopping a client", "statement": "After Context::stop has taken effect no further received event is dispatched or delivered; stop is idempotent over all clones of the context and on server side contexts does nothing; stop does not close the sending direction: later emits still succeed, and pending requests end by timeout only.", "quantifier": "every schedule and number of context clones", "why_tests_cant": "all interleavings", "anchors": ["src/ipc/context.rs: Context::stop", "src/ipc/client.rs: IPCClient::connect"]}
{"id": "C52", "title": "End to end request", "statement": "In a system of one client and one server over a loss-free connection, for every schedule: when nothing is left to do except timers, a client task that awaited the reply to an event has received the first event the server's handler emitted for it, or, if it emitted none, the End event with the handler's response bytes, or Err(ErrorEvent) with code 500 if it failed.", "quantifier": "every handler emitting any finite list of responses, every schedule", "why_tests_cant": "exponential interleavings of two processes", "anchors": ["src/ipc/mod.rs: handle_connection, handle_event", "src/ipc/stream_emitter/emit_metadata_with_response.rs: poll"]}
{"id": "C53", "title": "Handshake packages reuse one key and nonce", "statement": "Two connections between the same pair of key pairs encrypt their session secrets with the same key and the same nonce, so with a stream cipher the difference of the two session keys can be read off the wire.", "quantifier": "every pair of key pairs, every two sessions", "why_tests_cant": "it quantifies over every peer behaviour, key and schedule; a test exercises one", "anchors": ["src/protocol/encrypted/crypt_handling.rs: from_server_key_exchange", "src/protocol/encrypted/crypt_handling.rs: CipherBox::encrypt"]}
{"id": "C54", "title": "The server's handshake can be replayed to a client", "statement": "A client that is sent the recorded handshake bytes of an earlier session again completes the key exchange, with the session key of that earlier session and its counters at zero; the client contributes nothing fresh.", "quantifier": "every client, every recorded handshake, every later session", "why_tests_cant": "it quantifies over every peer behaviour, key and schedule; a test exercises one", "anchors": ["src/protocol/encrypted/crypt_handling.rs: from_client_key_exchange"]}
{"id": "C55", "title": "The server does not authenticate the client", "statement": "A server completes the key exchange with anyone who sends a public key it accepts, whatever else that peer sends; knowing the secret key is not required.", "quantifier": "every accepted public key and every peer behaviour", "why_tests_cant": "it quantifies over every peer behaviour, key and schedule; a test exercises one", "anchors": ["src/protocol/encrypted/crypt_handling.rs: from_server_key_exchange"]}
{"id": "C56", "title": "Shutting down an encrypted stream", "statement": "shutdown() on an encrypted write half whose transport works first transmits everything buffered, then answers Pending without arranging a wake-up, so it never returns; if it is polled once more it reports success, and after that every flush, shutdown or large write panics.", "quantifier": "every sequence of writes and flushes before the shutdown, every behaviour of the transport", "why_tests_cant": "it quantifies over every peer behaviour, key and schedule; a test exercises one", "anchors": ["src/protocol/encrypted/io_impl.rs: poll_shutdown"]}
{"id": "C57", "title": "Silent peers block the key exchange", "statement": "A peer that connects and sends fewer than 32 bytes without closing blocks the accept loop: no later client is served and the server never returns. A handshake package with a secret shorter than 32 bytes makes the client wait forever.", "quantifier": "every silent peer, every list of later clients", "why_tests_cant": "it quantifies over every peer behaviour, key and schedule; a test exercises one", "anchors": ["src/ipc/server.rs: start", "src/protocol/encrypted/protocol_impl.rs: protocol_accept"]}
{"id": "C58", "title": "Lost connections are not reported to waiting requests", "statement": "When every connection of an endpoint has been closed or stopped, a request already sent whose reply had not arrived is not told: its await_reply neither completes nor fails by itself, and the only result it can ever give is Timeout (or the caller drops it). Replies queued before the loss are still delivered. Reply streams yield what was queued and then at most a Timeout, never an end. No event is read from and no handler started for a lost connection.", "quantifier": "every configuration, number of connections, user program, schedule and peer behaviour before and after the loss", "why_tests_cant": "it quantifies over every schedule and every behaviour of peers and user code; a test exercises one", "anchors": ["src/ipc/mod.rs: handle_connection", "src/ipc/stream_emitter/emit_metadata_with_response.rs: poll", "src/ipc/stream_emitter/emit_metadata_with_response_stream.rs: poll_next"]}
{"id": "C59", "title": "Timeouts cover the waiting, not the sending", "statement": "await_reply answers Timeout only after the complete request has been written: while the write is blocked the timer does not run, and a request whose write fails answers the write error. Streams yield nothing, not even a Timeout, before their request was sent. A reply, whatever it contains, is never reported as Timeout.", "quantifier": "every run of every endpoint", "why_tests_cant": "it quantifies over every schedule and every behaviour of peers and user code; a test exercises one", "anchors": ["src/ipc/stream_emitter/emit_metadata_with_response.rs: poll", "src/ipc/stream_emitter/emit_metadata_with_response_stream.rs: poll, poll_next"]}
{"id": "C60", "title": "Pooled connections share requests but not fate", "statement": "With several connections sharing one listener table, a reply is accepted from whichever connection it arrives on, even if the connection the request was sent over is gone. stop() ends the connection it is called on and no other; a connection neither closed nor stopped keeps reading, or holds one reply that it waits to place, whatever happened to the others.", "quantifier": "every number of connections, every schedule", "why_tests_cant": "it quantifies over every schedule and every behaviour of peers and user code; a test exercises one", "anchors": ["src/ipc/builder.rs: build_pooled_client", "src/ipc/client.rs: connect", "src/ipc/context.rs: stop, PooledContext"]}
{"id": "C61", "title": "Every event is sent once, under an id of its own", "statement": "No two sends of an endpoint, by whichever tasks, handlers or automatic answers and over whichever connections, completed or given up, carry the same event id, as long as fewer than 2^32 events are created and the clock behaves.", "quantifier": "every run of every endpoint with fewer than 2^32 events", "why_tests_cant": "it quantifies over every schedule and every behaviour of peers and user code; a test exercises one", "anchors": ["src/events/mod.rs: generate_event_id", "src/ipc/stream_emitter/emit_metadata.rs", "src/ipc/mod.rs: handle_event"]}
{"id": "C62", "title": "Builder settings reach everything built from the builder", "statement": "Every context of a client, a pooled client or an accepted server connection has the timeout last given to the builder (60 s if none) and the serializer last given (the first available format if none), in whichever order builder methods are called. Connecting uses the last client options and the last address for every connection of a pool, binding the last server options. The shared data hold under each key the value last inserted, alone or in bulk, and nothing else; connections of a server share the data but not the reply tables, connections of a pool share both. Only contexts of clients carry a stop signal.", "quantifier": "every sequence of builder calls, every pool size, every number of accepted connections", "why_tests_cant": "the sequences of builder calls are unbounded and settings could interfere in any combination", "anchors": ["src/ipc/builder.rs: timeout, with_serializer, insert, insert_all, client_options, server_options, address, build_client, build_pooled_client, build_server", "src/ipc/context.rs: Context::new", "src/ipc/server.rs: start", "src/ipc/client.rs: connect"]}
{"id": "C63", "title": "When timers run", "statement": "The timeout of a request is the last one given by with_timeout, else the context's; calls after the first poll have no effect. Its timer starts in the poll in which the request has been written and flushed completely, so a blocked write never times out; from then on the request answers a reply as soon as it is polled with one, Timeout as soon as it is polled at or after the end of the time without one, and never Timeout earlier; polled with a reply after the end of the time it answers the one or the other, by chance. A reply stream has the timeout of its request; every item has its own timer, started by the first poll for that item and kept across dropped next() futures, so time between items in which nobody polls does not count.", "quantifier": "every sequence of polls at every sequence of times, with any channel contents, any behaviour of the connection and any other activity in between", "why_tests_cant": "it ranges over all sequences of poll times and arrivals; a test with sleeps samples a few and is itself racy", "anchors": ["src/ipc/stream_emitter/emit_metadata_with_response.rs: with_timeout, poll", "src/ipc/stream_emitter/emit_metadata_with_response_stream.rs: with_timeout, poll, poll_next"]}
{"id": "C64", "title": "Concurrent emits arrive as exactly those events, plain and encrypted", "statement": "Any number of emits on one connection, polled in any order, with the socket accepting bytes in any portions: what the peer's receive loop reads is exactly one event for each of some of these calls, as asked for and in the order they got the writer, including every call that answered Ok; then it waits or sees the end of the connection. This holds on plain sockets and through encrypted streams, also if emits are dropped while they wait for the writer. On encrypted connections it is false if an emit is dropped while it is being written or flushed: its event still arrives, and the next emit to get the writer answers Ok although its event has not been sent. An emit that has answered, also with an error, or was dropped never keeps the others from writing: the writer is held only by calls still under way, and a poll that does not finish holds it or waits for another one that does.", "quantifier": "every set of emit calls, every interleaving of polls and drops, every pattern of partial writes, every way the bytes reach the receiver", "why_tests_cant": "interleavings, partial writes and chunkings are unbounded; the defect needs a cancellation in the middle of a write", "anchors": ["src/ipc/stream_emitter/emit_metadata.rs: EmitMetadata::poll", "src/protocol/encrypted/io_impl.rs: poll_write, poll_flush", "src/events/event.rs: into_bytes, from_async_read"]}
{"id": "C65", "title": "Endpoints of a process do not influence each other", "statement": "The connections a server has accepted, clients and pools in one process are independent: each does and observes exactly what it could do alone, the others showing only in the values of event ids; nothing that happens on another one (events, blocked replies, failures, closing, panics, new connections) makes a step of it possible or impossible or changes what is observed in it. All events sent by the process carry different ids, and an event is taken as the reply to a request only if it arrives over the endpoint that made the request; arriving elsewhere it goes to a handler like any other event (an End event is ignored).", "quantifier": "every number of endpoints opened at any time, every interleaving of their steps, every peer behaviour and every user code", "why_tests_cant": "interleavings of many connections are unbounded; absence of influence is a statement about all of them", "anchors": ["src/ipc/server.rs: IPCServer::start", "src/ipc/client.rs: IPCClient::connect", "src/ipc/mod.rs: handle_connection", "src/events/mod.rs: generate_event_id"]}
{"id": "C66", "title": "Full connections: no deadlock without reply streams, possible with them", "statement": "A connection takes only a limited number of events per direction before a send has to wait. If neither end opens reply streams (any emits, awaited replies, spawned tasks, any handlers answering or asking through their context), the two ends never block each other: when nothing goes on by itself any more, everything sent has been read, both event loops are ready, and every task and handler has ended or awaits a reply of which nothing has arrived. With reply streams this fails for every capacity: two peers that each read a stream while sending per item, and keep answering the other's stream, reach a state in which both loops and all sends wait for each other, and only dropping a future or a stream gets out of it.", "quantifier": "every positive capacity, every interleaving, every user code without reply streams and stop; for the failure: every capacity", "why_tests_cant": "absence of deadlock ranges over all schedules, programs and capacities; the deadlock needs filled socket buffers on both directions", "anchors": ["src/ipc/mod.rs: handle_connection, handle_event", "src/ipc/context.rs: get_reply_sender, register_reply_listener", "src/ipc/stream_emitter/emit_metadata.rs: EmitMetadata::poll", "src/ipc/stream_emitter/emit_metadata_with_response_stream.rs"]}
{"id": "C67", "title": "Endpoints over byte streams behave as endpoints exchanging whole events", "statement": "Two endpoints joined by byte streams, writing and reading in any portions, interleaved in any way, with any amount of buffering: as long as the events sent can be carried at all (lengths fit their fields, the reader has memory), everything observed at both ends is what would be observed if whole events were passed on, and the bytes on the way are exactly the events sent and not yet received followed by the beginning of the one being written. No receive loop ends because of what it reads. Conversely every exchange of whole events is possible with bytes. In particular requests are answered as end to end (C52), and without reply streams the ends never block each other however few bytes fit (C66).", "quantifier": "every user code and handlers at both ends, every interleaving of byte-wise writes, byte-wise reads and other steps, every buffer size", "why_tests_cant": "all portionings and interleavings of bytes of concurrent emits with all user code", "anchors": ["src/ipc/stream_emitter/emit_metadata.rs: EmitMetadata::poll", "src/events/event.rs: into_bytes, from_async_read", "src/ipc/mod.rs: handle_connection"]}
{"id": "C68", "title": "Requests come to rest", "statement": "Let a client's own tasks use the API in any way and end whatever they are answered, its handlers emit nothing and end, and a server's handlers emit as often as they like and end, both keeping the predefined Error handler. Then no execution goes on forever, in whatever order things happen, timers, drops and stops included; from every state a state of rest is reached without any timer, and there every awaited request has been answered as C52 says. If instead handlers on both sides answer an event by emitting one of the same name, a single event causes any number of events.", "quantifier": "every user code meeting the conditions, every interleaving, every moment", "why_tests_cant": "a liveness claim over all infinite executions and all user code", "anchors": ["src/ipc/mod.rs: handle_connection, handle_event", "src/events/event_handler.rs: handle_event", "src/ipc/context.rs"]}
{"id": "C69", "title": "What keeps a connection alive", "statement": "Each direction of a connection stays open exactly as long as anything at its sending end is alive: the receive loop, a context or clone, the future of an emit or request, a reply stream, a running handler. The receive loop counts as such, so dropping contexts never closes a connection: without stop() and without a transport failure both ends go on receiving, and an abandoned connection is never released. Only stop() on the client ends it, and it ends only the client's loop: the server's loop goes on, and contexts left can still send to it, until nothing at the client is alive; then the server's loop ends after reading what was on the way, and when its last handler has finished everything is released.", "quantifier": "every history of cloning, dropping, emitting, asking, handling and stopping at both ends, every moment", "why_tests_cant": "ranges over all orders in which references are created and dropped; the claim that something is never released cannot be observed in finite time", "anchors": ["src/ipc/client.rs: connect", "src/ipc/server.rs: start", "src/ipc/context.rs: Context, stop", "src/ipc/mod.rs: handle_connection, handle_event", "src/ipc/stream_emitter/mod.rs: StreamEmitter"]}
{"id": "C70", "title": "Reply streams end to end", "statement": "Between a client and a server whose handlers only emit replies: at every moment the items a client's reply stream has yielded are the first events which the one handler run for its request has sent, in the order sent, each once; 'no more items' comes only after all of them including the End event with the handler's result; the only other item is one Timeout before the End event. When nothing is left to do except timers, the handler has been called and has ended, and a client still polling the stream has got everything the handler sent, which is then a handler that failed or panicked: if the handler returned Ok, polling reaches the End event. The same holds when the events travel as bytes through connections of any positive capacity.", "quantifier": "every client code, every replying server code, every interleaving, every portioning of bytes, every moment", "why_tests_cant": "ranges over all handlers, numbers of replies, interleavings of both ends and splits of the byte streams", "anchors": ["src/ipc/stream_emitter/emit_metadata_with_response_stream.rs: ResponseStream, poll_next", "src/events/event_handler.rs: handle_event", "src/ipc/mod.rs: handle_connection, handle_event", "README.md"]}
{"id": "C71", "title": "Two endpoints over an encrypted connection behave as over a plain one", "statement": "After the key exchange, whatever the code at both ends does and however the transport splits and delays what is written and read: as long as every event sent fits one package, everything observed at both ends (calls, replies, stream items, errors) is what can be observed when whole events are passed on without loss, and everything that can be observed then can be observed on the encrypted connection. No receive loop ends or blocks its thread because of what it reads; the bytes under way are the sealed packages of the events sent and not received, in order, each with the next nonce. Hence requests are answered end to end, reply streams yield what the handler sent, and without reply streams the ends do not block each other, for every capacity of at least one byte.", "quantifier": "every cipher and Diffie-Hellman function that satisfy their contracts, every code at both ends, every interleaving, every portioning of bytes, every capacity", "why_tests_cant": "ranges over all programs, interleavings and splits of the ciphertext stream", "anchors": ["src/protocol/encrypted/io_impl.rs: poll_read, poll_write, poll_flush", "src/ipc/stream_emitter/emit_metadata.rs: poll", "src/ipc/mod.rs: handle_connection", "src/events/event.rs: from_async_read, into_bytes"]}
{"id": "C72", "title": "Events are processed once each, in the order in which they were sent", "statement": "On a connection whose writes and reads do not fail, the events one end has sent are, in the order in which their sends completed, those the other end has processed (given to the waiting request, passed to a handler, or ignored), then at most one it has read and still holds, then those on the way. So handlers are called in the order of sending and never twice for one event, whatever the handlers do and however bytes are portioned, plain or encrypted; the order in which handlers finish is not fixed. If reply streams are not used and nothing goes on by itself, everything sent has been processed.", "quantifier": "all user programs and handlers at both ends, all interleavings of their tasks, all portions in which bytes are written and read, all capacities of the transport", "why_tests_cant": "The receive loop, the handler tasks and the sending tasks interleave in unboundedly many ways; a test sees the few schedules its executor produces.", "anchors": ["src/ipc/mod.rs: handle_connection, handle_event", "src/events/event_handler.rs: handle_event", "src/ipc/stream_emitter/emit_metadata.rs: EmitMetadata", "src/events/event.rs: Event::from_async_read"]}
{"id": "C73", "title": "Shared data: reads see the latest write, updates are not lost, locking is fair", "statement": "The data of a context is one map per build call, shared by all its connections, pooled clients, handlers and tasks. A get returns the value last stored under that key by anyone through any of those contexts, or what the builder was given. While a write guard is held nobody else reads or changes the data, while a read guard is held nobody changes it; so updates that read and store under one write guard are never lost. Guards are granted in the order in which they were asked for: nobody is overtaken by a later call it excludes, and nobody waits unless an earlier call that excludes it is pending. A task that locks again while it holds a guard waits for ever if one of the two calls is a write, or if anyone asked to write in between.", "quantifier": "all histories of build calls, lock calls, accesses, releases and cancellations by any number of tasks on any number of connections and builds", "why_tests_cant": "Lost updates, overtaking and self-deadlock depend on how tasks interleave and where futures are dropped; a test sees a few schedules.", "anchors": ["src/ipc/context.rs: Context::data", "src/ipc/builder.rs: IPCBuilder::insert, build_client, build_pooled_client", "src/ipc/server.rs: IPCServer::start"]}
{"id": "C74", "title": "Handlers run concurrently; the receive loop waits for none, and a panic stays in its task", "statement": "Every received event that is for a handler starts that handler as a task of its own. However many handlers of a connection are running, waiting for replies or streams, or stuck for ever, the connection goes on reading: any number of further events is received in order and their handlers start at once. Nothing a handler or another user task does keeps a connection's loop from reading, from handing on a reply or from ending. A panicking handler (or task) ends alone: connections, streams and other tasks are untouched and whatever could happen elsewhere still can.", "quantifier": "all configurations and handler programs, all reachable states of an endpoint with any number of connections and tasks, all sequences of received events, all actions of all tasks", "why_tests_cant": "A test runs a few slow handlers; that none of arbitrarily many handlers in arbitrary states, at any interleaving, delays the loop or takes others down with it is a statement about all schedules.", "anchors": ["src/ipc/mod.rs: handle_connection, handle_event", "src/events/event_handler.rs: EventHandler::handle_event"]}
{"id": "C75", "title": "An end that stops reading while the connection stays open blocks its peer, without a timeout", "statement": "Once a receive loop has ended (Context::stop, or a failed read) while the connection stays open, nothing sent to that end is taken off the connection any more. The peer can still send exactly as many bytes as fit in the connection; when it is full, each of its tasks that is sending - emits as well as handlers about to answer - waits for ever: no reply timeout and nothing either end's tasks do ends that wait, and no further event is sent. The same holds on an encrypted connection, where the packages of the events count.", "quantifier": "all user programs and handlers at both ends, all interleavings of their tasks, all portions in which bytes are written and read, all capacities of the transport, all points at which the loop ends", "why_tests_cant": "That a send never completes, for every later schedule, is a statement about infinitely many runs; a test can only wait a while.", "anchors": ["src/ipc/context.rs: Context::stop", "src/ipc/client.rs: IPCClient::connect", "src/ipc/stream_emitter/emit_metadata.rs: EmitMetadata", "src/ipc/mod.rs: handle_connection"]}
{"id": "C76", "title": "On an encrypted connection an attacker cannot make an end process anything but events the two ends sent, though possibly the end's own", "statement": "Two ends have exchanged keys and the transport is then in the hands of an attacker, who gives each end any bytes, in any portions, and ends connections at will. If of the packages he gives an end the cipher accepts, as number i, only a package number i one of the two ends made: the j-th event an end reads is the j-th event one of the two ends sent or is sending; handlers are called only for these, at most once each and in order. If own packages are not given back to an end, what it reads is the beginning of what the other end sent: nothing is left out, repeated, changed or reordered; when the attacker merely cuts off what the other end wrote this needs no assumption about forging. From a package the cipher refuses, and from anything after it, no event is read; it ends the connection once all before it was read. What an end writes are the packages of its events, numbered in the order sent. An end's own packages given back to it are accepted: it calls its own handlers for its own events, and even its own requests can be answered by its own handlers, while the peer reads nothing.", "quantifier": "all user programs and handlers at both ends, all interleavings, all bytes the attacker supplies and all portions, all ciphers that decrypt what they encrypted", "why_tests_cant": "The claim is over every strategy of an active attacker against every program; tests try a few manipulations.", "anchors": ["src/protocol/encrypted/io_impl.rs: AsyncRead, AsyncWrite", "src/protocol/encrypted/crypt_handling.rs: CipherBox", "src/ipc/mod.rs: handle_connection", "src/ipc/stream_emitter/emit_metadata.rs: EmitMetadata"]}
{"id": "C77", "title": "If both ends accept his key, an attacker between them during the key exchange reads and supplies everything", "statement": "An attacker between client and server who has any key pair of his own whose public key both ends accept (each allows unknown peers or lists that key): if he gives the server his public key, computes the session key from the server's answer and seals it for the client, both ends complete the key exchange, and both use a session key he knows. From then on he reads every event either end sends, and he can make each end read any events he likes, in any number, in place of the peer's; requests of one end can be answered by him while the other end knows nothing. An end that does not accept his public key does not complete such an exchange.", "quantifier": "all key pairs, secrets, ciphers that decrypt what they encrypted, Diffie-Hellman functions; then all user programs and handlers at both ends, all interleavings and portions, all events the attacker supplies", "why_tests_cant": "The attack is a composition of two exchanges and arbitrary later runs; that it succeeds (and that it needs an accepted key) is universally quantified over keys, options and runs.", "anchors": ["src/protocol/encrypted/crypt_handling.rs: from_server_key_exchange, from_client_key_exchange", "src/protocol/encrypted/mod.rs: Keys, EncryptionOptions", "src/ipc/mod.rs: handle_connection"]}
{"id": "C78", "title": "User code runs as it is written and nothing is sent that it did not ask for", "statement": "What every task (a task of the user, an event handler, code spawned by one of these) does is what its program says, operation after operation in program order: an emit call that succeeds has sent exactly one event, with the namespace, name and payload bytes of the call, as a response if its context belongs to an event and as an initiator otherwise, and hands back that event's id; one whose payload cannot be made hands over that error and sends nothing; one that fails or is dropped while writing hands over that; await_reply registers its listener, sends exactly one event and finishes exactly once; stream_replies likewise hands over one stream. After a handler has returned, and only then, its one automatic answer is sent. Hence every event ever sent or begun on a connection is what some emit call of user code asked for, or the automatic answer to an event that was handled.", "quantifier": "all configurations, programs (also endless ones), numbers of connections, schedules, peer behaviour, write failures, dropped futures and timeouts", "why_tests_cant": "speaks about every program and all interleavings of its tasks", "anchors": ["src/ipc/mod.rs: handle_event", "src/ipc/context.rs: emit, emit_to, register_reply_listener", "src/ipc/stream_emitter/emit_metadata.rs: poll", "src/ipc/stream_emitter/emit_metadata_with_response.rs: poll", "src/ipc/stream_emitter/emit_metadata_with_response_stream.rs: poll"]}
{"id": "C79", "title": "Endpoints joined in a network answer each other as if alone, and broken connections hurt only themselves", "statement": "Any number of endpoints are joined by connections in any way (clients, pooled clients with connections to the same or different servers, the connections servers have accepted). Every endpoint behaves as it would alone with some peer. What is read from a connection is, in order and without gaps or repetitions, what was sent into its other end and nothing sent elsewhere. A request of a (pooled) client gets Timeout, the error its own write met, or the first thing emitted by the handler that was called with exactly this request at the other end of the connection it was sent over: never an answer of another server, even if the servers use equal event ids; a reply stream yields what that handler sent. When nothing can go on by itself, every request sent over a connection that is intact has been handled there and answered (or its timer fired, its future was dropped, or the handler panicked before sending), and every waiting stream has yielded everything its handler sent, whatever has become of the other connections.", "quantifier": "all networks, user tasks and handlers of the client and of other endpoints, reply-only handlers on the servers it asks, schedules, times at which connections break or are closed", "why_tests_cant": "Quantifies over network shapes, all interleavings of all endpoints and all points at which connections break.", "anchors": ["src/ipc/mod.rs: handle_connection, handle_event", "src/ipc/builder.rs: build_client, build_pooled_client", "src/ipc/server.rs: IPCServer::start", "src/ipc/context.rs: Context, PooledContext", "src/ipc/stream_emitter/emit_metadata_with_response.rs: poll"]}
{"id": "C80", "title": "Emits on one connection take turns in the order of asking, and all get their turn", "statement": "Emits that share a connection (the clones of an emitter or context, in any tasks) ask for it in their first poll. What is on the connection is one contiguous piece per emit, in the order of asking: an emit that still waits has been overtaken by nobody, whatever fails, is dropped or is polled in whichever order. If whoever has been given the connection keeps being polled while the connection takes bytes (or is dropped), every emit that has asked finishes. The price: an emit that has been polled once and is then neither polled nor dropped lets nobody through who asked later, even if it has not been given the connection yet.", "quantifier": "all sets of emits, schedules (polls, polls without cooperative budget, drops), answers of the connection; all endless runs in which the writer keeps being served", "why_tests_cant": "Order and starvation depend on every schedule, drop and write answer; absence of starvation is a statement about endless runs.", "anchors": ["src/ipc/stream_emitter/mod.rs: StreamEmitter", "src/ipc/stream_emitter/emit_metadata.rs: poll"]}
{"id": "C81", "title": "Under endless load every request is answered", "statement": "A client and one connection of a server, joined without loss, run for ever: other tasks, handlers, requests and streams may go on without end. If every task and receive loop that can go on gets a turn at some time, the user keeps reading (or drops) his reply streams, and each of the server's handlers emits, returns or panics at some time, then every request awaited gets a result: what the handler called for it emitted first or returned (as reply or error), or Timeout if its timer fires first, or it is given up, or its handler panics before sending anything. Every event a handler has sent for a request read as a stream is handed to that stream at some time, in order and without gaps, unless the stream is dropped or ended. Runs with such turns exist for all endpoints.", "quantifier": "all user tasks, handlers, endless schedules (with timers, drops, anything else in between), requests and streams", "why_tests_cant": "It is a statement about endless executions under every fair schedule: a test can only observe finitely much of one schedule.", "anchors": ["src/ipc/mod.rs: handle_connection", "src/ipc/stream_emitter/emit_metadata_with_response.rs: EmitMetadataWithResponse", "src/ipc/context.rs: register_listener"]}
{"id": "C82", "title": "Two endpoints that ask each other", "statement": "Both ends of a connection run any tasks and handlers, which emit, ask, read reply streams and spawn tasks, also while a request is handled. Then a request still gets Timeout or exactly what the first event the other end sent in reply to it says, and a stream yields exactly the events sent in reply to its request, in order, each once, up to the first End. If no reply streams are used and nothing goes on by itself any more, a request without result leads, through handlers that wait for requests of their own, to a handler that panicked or to a question that was itself read as a reply: requests never wait for each other in a circle. If nobody panics and no question is read as a reply, every request has its result and every task and handler has ended. A question is never read as a reply if tasks and handlers await replies only through contexts without reference. The same holds over connections of any capacity, over bytes in any portions, and over encrypted connections.", "quantifier": "all user tasks and handlers at both ends (nested requests of any depth), schedules, timers, portions, capacities", "why_tests_cant": "Nested requests interleave in unboundedly many ways, and absence of circular waiting is a statement about every schedule and every program at both ends.", "anchors": ["src/ipc/mod.rs: handle_connection, handle_event", "src/ipc/context.rs: register_listener, Context::emit", "src/ipc/stream_emitter/emit_metadata_with_response.rs: EmitMetadataWithResponse", "src/ipc/stream_emitter/emit_metadata_with_response_stream.rs"]}
{"id": "C83", "title": "Nested requests are answered under endless load", "statement": "Both ends of a connection run any tasks and handlers that emit, ask and spawn tasks (no reply streams); handlers end once their requests have results; the run need never come to rest and every task and receive loop that can go on does so at some time. Then every awaited request gets its result at some time, or its task panics, or it leads to a panic of a handler or to a question that was itself read as a reply; and every handler that is called sends its answer at some time, with the same exceptions. If nobody panics and no question is read as a reply, every request gets its result and every handler answers. This holds until an end has made 2^32 events, and also over a connection of any bounded capacity if no sender is passed over for ever.", "quantifier": "all user tasks and handlers at both ends (nested requests of any depth), all fair infinite schedules", "why_tests_cant": "An eventuality over infinite fair runs in which unrelated tasks never stop; nesting depth and load are unbounded.", "anchors": ["src/ipc/mod.rs: handle_connection, handle_event", "src/ipc/context.rs: register_listener, Context::emit", "src/ipc/stream_emitter/emit_metadata_with_response.rs: EmitMetadataWithResponse"]}
{"id": "C84", "title": "Over byte streams, sends complete and requests are answered under endless load", "statement": "Two endpoints are joined by byte streams that take a bounded number of unread bytes (at least one), and tasks and handlers may go on for ever; writes and reads are portioned and interleaved in any way, but whoever waits for the writer or for room is not passed over for ever, and receive loops read what there is. Then a task with an event to send gets the writer and writes all of it at some time, every byte written is read, every event sent is read whole and processed, every awaited request gets its result and every called handler answers, with the exceptions of C83 (panics, a question read as a reply, 2^32 events).", "quantifier": "all user tasks and handlers at both ends (no reply streams), all deliverable events, all capacities, all portions and fair infinite interleavings of writes, reads and other steps", "why_tests_cant": "An eventuality over infinite runs in which senders compete for the writer and for room byte by byte while load never ends.", "anchors": ["src/ipc/stream_emitter/emit_metadata.rs: EmitMetadata::poll", "src/ipc/mod.rs: handle_connection", "src/events/event.rs: Event::from_async_read, Event::into_bytes"]}
{"id": "C85", "title": "In a network, intact connections answer under endless load whatever the others do", "statement": "A client or pooled client is joined to accepted connections of servers over any number of connections, among any other endpoints. Some connections may break or be read no more, and tasks may go on for ever anywhere. A send of a request completes or fails. If the tasks and the receive loops at the two ends of one connection get their turns, nothing is lost on it, and the reply streams it feeds are read or dropped, then every request sent over it is handled by the server at its other end, and gets what that handler emitted first, unless it times out or is given up, the handler panics before it has sent anything, or the client's process makes more than 2^32 events; and every event the handler sends for a request read as a stream is handed to that stream, in order and without gaps, until it ends or is dropped.", "quantifier": "all networks of endpoints with any connections, tasks and handlers, all fair infinite interleavings, all breaks of other connections", "why_tests_cant": "An eventuality over infinite runs of any number of endpoints: no finite execution shows that a request on a good connection is never starved by others that hang, break or never stop.", "anchors": ["src/ipc/client.rs: IPCClient::connect", "src/ipc/context.rs: PooledContext, emit_raw", "src/ipc/stream_emitter/emit_metadata_with_response.rs", "src/ipc/mod.rs: handle_connection", "src/ipc/server.rs: IPCServer::start"]}
{"id": "C86", "title": "Reply streams need no large buffers as long as they are read", "statement": "A client awaits replies and reads reply streams; a server's handlers emit and return; the connection holds only a bounded number of events per direction, at least one, and a send waits while it is full. Tasks may go on for ever. If a task that can act again and again is not passed over for ever, the receive loops get their turns and the user reads each reply stream he opens (or drops it), then every send that has begun completes, everything on the connection is taken, every awaited request gets what its handler emitted first or returned, or times out or is given up, or that handler panics before it sends anything, and every event a handler sends for a stream is handed to it in order and without gaps until it ends or is dropped; unless the client's process makes more than 2^32 events. (If both ends leave streams unread, they can jam: C66.)", "quantifier": "all capacities of at least one, all client programs, all server handlers that emit and return, all fair infinite interleavings", "why_tests_cant": "A deadlock depends on buffer sizes and on the interleaving of two peers; its absence for every size and over infinite runs is no finite observation.", "anchors": ["src/ipc/mod.rs: handle_connection", "src/ipc/stream_emitter/emit_metadata.rs", "src/ipc/stream_emitter/emit_metadata_with_response_stream.rs: ResponseStream", "src/events/event_handler.rs", "src/protocol/tcp.rs", "src/protocol/unix_socket.rs"]}
{"id": "C87", "title": "Reply streams over byte streams with endless load", "statement": "As C86, but the two ends are joined by byte streams that hold at most a fixed number of bytes per direction, at least one: events are serialized, written in portions of any size under the writer's lock, and read and parsed byte by byte, in any fair interleaving, while tasks may go on for ever. If every event can be carried (C67), a task that can run or write again and again is not passed over for ever, the receive loops get their turns and the user reads each reply stream he opens (or drops it), then every send completes and every byte written is read; every awaited request gets what its handler emitted first or returned, or times out or is given up, or that handler panics before it sends anything; and every event a handler sends for a stream is handed to it in order and without gaps until it ends or is dropped; unless the client's process makes more than 2^32 events.", "quantifier": "all byte capacities of at least one, all client programs, all server handlers that emit and return, all fair infinite interleavings of tasks and partial writes and reads", "why_tests_cant": "Partial writes, full socket buffers and the writer's lock interleave in unboundedly many ways, and an eventuality over infinite runs has no finite witness.", "anchors": ["src/ipc/stream_emitter/emit_metadata.rs", "src/ipc/stream_emitter/emit_metadata_with_response_stream.rs: ResponseStream", "src/events/event.rs: Event::from_async_read, into_bytes", "src/ipc/mod.rs: handle_connection", "src/protocol/tcp.rs", "src/protocol/unix_socket.rs"]}
{"id": "C88", "title": "Programs of requests, and handlers, come to an end", "statement": "A client and a server, joined as in C81, C86 or C87 (without bounds, with bounded channels, or over byte streams of bounded capacity), may run for ever. A task of the client whose code emits events, awaits replies one after another, computes and spawns other tasks, and would end if each of its requests had a result, whatever the results are, does end: it returns, or panics, or is left waiting for one request whose handler panicked before it had sent anything; unless the client's process makes more than 2^32 events. It never hangs for any other reason: no chain of requests, however long and however it depends on earlier results, can deadlock with other tasks, streams (as long as they are read) or full buffers. At the server, every handler called whose code is finite ends as well: it panics, or it returns and its answer is sent.", "quantifier": "all client tasks whose code is a finite tree of requests (branching on every result), all other client tasks, all server handlers that emit and return, all fair infinite interleavings, all capacities of at least one", "why_tests_cant": "Termination of every program under every fair infinite schedule is an eventuality: no finite number of executions shows the absence of a hang.", "anchors": ["src/ipc/stream_emitter/emit_metadata_with_response.rs", "src/ipc/stream_emitter/emit_metadata.rs", "src/ipc/context.rs: Context, register_reply_listener", "src/ipc/mod.rs: handle_connection, handle_event", "src/events/event_handler.rs", "src/protocol/tcp.rs"]}
