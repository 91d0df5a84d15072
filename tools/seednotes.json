{
 "crypt-max-plain": {
  "note": "run before C27_writer_sends_them_refuted was added, which fails on this edit",
  "tightened": [
   "C27_writer_sends_them_refuted"
  ]
 },
 "build-timeout": {
  "note": "run against the model before C62 was added; C62 states that builder methods leave each other's settings alone",
  "tightened": [
   "C62_contexts_have_the_settings"
  ]
 },
 "emit-raw-ref": {
  "note": "run before C48_emit_is_lazy covered emit_raw; it does now",
  "tightened": [
   "C48_emit_is_lazy"
  ]
 },
 "emit-poll-item-end": {
  "note": "run before C41_stream_end_unregisters was added, which fails on this edit",
  "tightened": [
   "C41_stream_end_unregisters"
  ]
 },
 "emit-res-none": {
  "note": "caught by C48; C37 is stated over the whole-endpoint model in Ipc.v, which has its own reply parsing"
 },
 "codec-loop-continue": {
  "note": "caught by C02, which states where the loop stops; C03 speaks about single events"
 },
 "wire-keeplock-err": {
  "note": "no theorem failed at first; C64_writer_is_not_kept was added and fails on this edit",
  "tightened": [
   "C64_writer_is_not_kept"
  ]
 },
 "timed-prefer-timer": {
  "note": "no theorem failed at first: the specification allowed either answer when reply and timer are both ready; it now says that select!'s random choice decides",
  "tightened": [
   "C63_request",
   "C63_item_results"
  ]
 },
 "b-server-stop": {
  "note": "no theorem failed at first; C62 was tightened and fails on the same edit (b-server-stop-2)",
  "tightened": [
   "C62_contexts_have_the_settings"
  ]
 },
 "b-bind-ignored": {
  "note": "no theorem failed at first; C50_server_result now says what a failed bind answers",
  "tightened": [
   "C50_server_result"
  ]
 },
 "b-server-lopts-late": {
  "note": "no theorem failed at first; C50_server_result now says that there is exactly one bind",
  "tightened": [
   "C50_server_result"
  ]
 },
 "e-closed-remove": {
  "note": "run against a base without C63's theorems; the same edit fails C63 (e-closed-remove-2)"
 },
 "r-sock-cut": {
  "note": "equivalent: the edited branch has the same effect"
 },
 "c-allocs": {
  "note": "equivalent with respect to the claim: at most three buffers of at most 65535 bytes remains true"
 },
 "p-des-any": {
  "note": "the check cannot be reached through the decoders; no theorem failed at first, C19_disabled_format_used_directly was added for direct use of a serializer",
  "tightened": [
   "C19_disabled_format_used_directly"
  ]
 },
 "link-read-restart": {
  "note": "equivalent: with whole packages the reader is always idle at that point"
 },
 "i-sender-loop": {
  "note": "no theorem failed at first; C39 now says that nobody is told there are no more replies while a loop holds one",
  "tightened": [
   "C39_no_send_error_over_a_reply",
   "C39_no_end_over_a_reply"
  ]
 },
 "i-emit-payload-err": {
  "note": "no theorem failed at first; C78 was added: every event sent was asked for",
  "tightened": [
   "C78_every_event_was_asked_for"
  ]
 },
 "conc-serial": {
  "note": "caught by C33 and C74; the expectation of C36 was wrong: an event that is dropped is never handled at all"
 },
 "conc-limit": {
  "note": "caught by C33 and C74; the expectation of C36 was wrong: an event that is dropped is never handled at all"
 },
 "lv-unknown-silent": {
  "note": "caught by C33, C34, C36, C37, C52 and C81; the expectation of C35 was wrong: C35 is about which handler is registered"
 }
}