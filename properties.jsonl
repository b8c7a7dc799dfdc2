{"id": "C01", "title": "Header round trip", "statement": "Encoding any header and appending any body gives a frame which decodes to exactly that header and exactly that body; so no body byte is ever read as header and no header byte leaks into the body.", "quantifier": "every key of every length (1, 2, 4, 8 bytes), every sequence number of every width, every body", "why_tests_cant": "2^100 headers times all bodies; a test tries a handful, and a swapped byte or wrong width in one of the 12 key/seq layouts survives.", "anchors": ["source/postcard-rpc/src/header.rs: VarHeader::write_to_vec", "source/postcard-rpc/src/header.rs: VarHeader::take_from_slice", "source/postcard-rpc/src/host_client/mod.rs: RpcFrame::to_bytes"]}
{"id": "C02", "title": "Exactly the documented byte strings decode", "statement": "A byte string decodes if and only if its first byte has version 0 and a sequence-width field other than 3 and the string is at least as long as the announced key and sequence number; when it decodes, re-encoding the result reproduces the consumed bytes exactly. Decoding never panics on any input.", "quantifier": "every byte string, of any length, including hostile ones", "why_tests_cant": "Input comes from the wire and is unbounded; rejection of every malformed input and canonicity are universally quantified.", "anchors": ["source/postcard-rpc/src/header.rs: VarHeader::take_from_slice", "source/postcard-rpc/src/header.rs: VarHeader constants"]}
{"id": "C03", "title": "The two header encoders agree and respect the buffer", "statement": "write_to_slice succeeds if and only if the buffer is at least as long as the encoding (between 3 and 13 bytes); on success it returns the same bytes as write_to_vec and leaves every later byte of the buffer untouched; header encodings are prefix-free.", "quantifier": "every header, every buffer length and contents", "why_tests_cant": "Needs all lengths around every layout boundary for all layouts and all values.", "anchors": ["source/postcard-rpc/src/header.rs: VarHeader::write_to_slice", "source/postcard-rpc/src/header.rs: VarHeader::write_to_vec"]}
{"id": "C04", "title": "Key compaction does not depend on the route", "statement": "Shrinking an 8-byte key to 4, 2 or 1 bytes yields the XOR of each consecutive group of bytes, and gives the same answer whichever intermediate lengths it passes through, including via VarKey and TryFrom conversions; conversions to a longer key are refused.", "quantifier": "every key, every pair of lengths, every route between them", "why_tests_cant": "2^64 keys; device and host compute the compaction by different routes and must agree on all.", "anchors": ["source/postcard-rpc/src/lib.rs: Key1::from_key2, from_key4, from_key8, try_from_varkey", "source/postcard-rpc/src/lib.rs: Key2::from_key4, from_key8, try_from_varkey", "source/postcard-rpc/src/lib.rs: Key4::from_key8, try_from_varkey", "source/postcard-rpc/src/header.rs: VarKey::shrink_to"]}
{"id": "C05", "title": "Comparing keys of different lengths", "statement": "Two variable-length keys compare equal exactly when they agree after both are compacted to the shorter of the two lengths; the comparison is reflexive and symmetric, and it is transitive through any middle key at least as long as the shorter end. Through a shorter middle key transitivity fails.", "quantifier": "every pair and triple of keys of every length", "why_tests_cant": "Symmetry and restricted transitivity range over 2^128+ pairs; 16 separate match arms.", "anchors": ["source/postcard-rpc/src/header.rs: impl PartialEq for VarKey"]}
{"id": "C06", "title": "Shrinking a key", "statement": "shrink_to never lengthens a key, ends at the shorter of the current and requested lengths, always leaves a key that still compares equal to the original, is idempotent, and shrinking twice equals shrinking once to the smaller length.", "quantifier": "every key, every sequence of requested lengths", "why_tests_cant": "All keys and all sequences of lengths.", "anchors": ["source/postcard-rpc/src/header.rs: VarKey::shrink_to", "source/postcard-rpc/src/header.rs: VarKey::kind"]}
{"id": "C07", "title": "Sequence number resizing and comparison", "statement": "Sequence numbers of any widths compare equal exactly when their numeric values are equal (the documentation of the type says that different lengths are never equal; that is not so); resize always produces the requested width, keeps the value when it fits and otherwise keeps it modulo 2^width.", "quantifier": "every sequence number, every width", "why_tests_cant": "2^32 values times nine width pairs.", "anchors": ["source/postcard-rpc/src/header.rs: VarSeq::resize", "source/postcard-rpc/src/header.rs: impl PartialEq for VarSeq", "source/postcard-rpc/src/header.rs: impl From<VarSeq>"]}
{"id": "C08", "title": "The computed minimum key length is collision free and minimal", "statement": "The key length computed at compile time for a set of endpoint and topic lists makes all compacted keys pairwise distinct, no shorter permitted length does, every longer permitted length does too, and the computation fails exactly when two full keys are identical.", "quantifier": "every list of lists of keys, of any size", "why_tests_cant": "Depends on hashes of user paths and types; the search loops over all pairs and an off-by-one skips one pair only.", "anchors": ["source/postcard-rpc/src/server/mod.rs: min_key_needed, keycheck!", "source/postcard-rpc/src/server/dispatch_macro.rs: sizer"]}
{"id": "C09", "title": "Requests reach their own handler", "statement": "For any dispatcher whose key length was computed by the library, a request carrying the key of a handled endpoint or topic, compacted to any length at least the minimum, runs the handler of exactly that endpoint or topic and no other, in whatever order the handlers are listed.", "quantifier": "every dispatcher configuration, every handled endpoint/topic, every permitted key length, every header sequence number and body", "why_tests_cant": "The key tables depend on user code and hash values; first-match order and key compaction could shadow a handler only for particular hash values.", "anchors": ["source/postcard-rpc/src/server/dispatch_macro.rs: handle", "source/postcard-rpc/src/server/mod.rs: Dispatch"]}
{"id": "C10", "title": "Refused requests are answered with the right error", "statement": "A request whose key is shorter than the dispatcher's key length is answered with KeyTooSmall, one whose key matches nothing with UnknownKey, an endpoint request whose body does not deserialize with DeserFailed, a spawn endpoint whose task cannot be spawned with FailedToSpawn; each under the error key with the request's own sequence number, and no handler runs and the context is unchanged. A topic message that does not deserialize is silently dropped.", "quantifier": "every dispatcher configuration, every header and body", "why_tests_cant": "Combination of arbitrary header, body, configuration.", "anchors": ["source/postcard-rpc/src/server/dispatch_macro.rs: handle, ep_arm!, tp_arm!"]}
{"id": "C11", "title": "At most one reply per request, with its sequence number", "statement": "Handling one endpoint request transmits exactly one frame when the transport accepts it, bearing the sequence number of the request; if the transport refuses the reply, exactly one error frame is attempted instead; never two frames get transmitted for one request by the dispatcher itself.", "quantifier": "every dispatcher configuration, every request, every pattern of transport failures", "why_tests_cant": "Requires every outcome of every send.", "anchors": ["source/postcard-rpc/src/server/dispatch_macro.rs: handle, ep_arm!", "source/postcard-rpc/src/server/mod.rs: Sender::reply, Sender::error"]}
{"id": "C12", "title": "Unknown full-length keys are refused", "statement": "A request with a full 8-byte key that belongs to no handled endpoint or topic is answered with UnknownKey and runs no handler.", "quantifier": "every dispatcher, every 8-byte key not in its tables", "why_tests_cant": "A dispatcher built for short keys compacts before matching: only a search over 2^64 keys would show a collision.", "anchors": ["source/postcard-rpc/src/server/dispatch_macro.rs: handle"]}
{"id": "C13", "title": "The server survives everything but a dead link", "statement": "Server::run returns only when the receiver reports a closed connection or a transmission reports a closed connection or a timeout; malformed frames, oversized frames, other receive errors and other transmit errors never stop it; and every well-formed frame received before that point is dispatched exactly once, in arrival order.", "quantifier": "every finite or infinite sequence of receive results and dispatch results", "why_tests_cant": "Quantifies over all histories of link behaviour.", "anchors": ["source/postcard-rpc/src/server/mod.rs: Server::run, WireTxErrorKind, WireRxErrorKind"]}
{"id": "C14", "title": "A transmit timeout stops the dispatch loop", "statement": "When transmission of a reply times out, the dispatch loop returns an error (as set_timeout_ms_per_frame documents).", "quantifier": "every request and every pattern of send outcomes", "why_tests_cant": "Needs the send outcome sequence timeout-then-success, which depends on host timing.", "anchors": ["source/postcard-rpc/src/server/impls/embassy_usb_v0_4.rs: set_timeout_ms_per_frame, send_all", "source/postcard-rpc/src/server/dispatch_macro.rs: ep_arm!", "source/postcard-rpc/src/server/mod.rs: Server::run"]}
{"id": "C15", "title": "Device-to-host USB framing is lossless", "statement": "Whatever sequence of non-empty messages the device sends to completion, a host reassembling 64-byte USB packets into transfers (a transfer ends at a short packet) receives exactly those messages, in order, with nothing in between.", "quantifier": "every sequence of messages of every length including multiples of the packet size", "why_tests_cant": "Unbounded sequences and lengths; the multiples-of-64 cases interact with the terminating empty packet.", "anchors": ["source/postcard-rpc/src/server/impls/embassy_usb_v0_4.rs: send_all", "source/postcard-rpc/src/server/impls/embassy_usb_v0_3.rs: send_all"]}
{"id": "C16", "title": "An interrupted device send never corrupts its neighbours", "statement": "If any of the sends time out or are cancelled or fail at any packet, every send that completes is still received intact as one transfer; in between the host can only see empty transfers or a prefix of the interrupted message, never bytes of two messages in a single transfer.", "quantifier": "every sequence of sends, every point of interruption in each of them, including during the recovery packet", "why_tests_cant": "Interruption can strike at any await point of any send; tests cannot enumerate the points and histories.", "anchors": ["source/postcard-rpc/src/server/impls/embassy_usb_v0_4.rs: send_all, pending_frame"]}
{"id": "C17", "title": "Host-to-device USB framing is lossless", "statement": "Every sequence of frames the nusb host transport sends is received by the device server as the same sequence of frames (plus only empty frames, which the server ignores, when the packet size is unknown), provided each fits the receive buffer.", "quantifier": "every sequence of frames, every receive buffer that is a multiple of the packet size, known or unknown maximum packet size", "why_tests_cant": "Unbounded lengths; the short-packet rule is implemented independently at both ends.", "anchors": ["source/postcard-rpc/src/host_client/raw_nusb.rs: NusbWireTx::send_inner", "source/postcard-rpc/src/server/impls/embassy_usb_v0_4.rs: EUsbWireRx::receive"]}
{"id": "C18", "title": "An oversized frame is dropped whole", "statement": "When a frame does not fit the device's receive buffer, the receive call reports ReceivedMessageTooLarge, consumes the rest of that frame, and the next receive call returns the next frame intact.", "quantifier": "every oversized frame, every following traffic, every buffer length", "why_tests_cant": "Depends on the alignment of the buffer with the packet size and on all lengths.", "anchors": ["source/postcard-rpc/src/server/impls/embassy_usb_v0_4.rs: EUsbWireRx::receive"]}
{"id": "C19", "title": "A frame that fits the buffer is accepted", "statement": "A frame whose length is at most the length of the receive buffer is delivered intact.", "quantifier": "every frame and every buffer length", "why_tests_cant": "Boundary at lengths that are multiples of the packet size.", "anchors": ["source/postcard-rpc/src/server/impls/embassy_usb_v0_4.rs: EUsbWireRx::receive"]}
{"id": "C20", "title": "COBS encode/decode round trip", "statement": "COBS-encoding any message yields bytes without zeros (at most one byte of overhead per 254 plus one) and decoding it, alone or followed by a terminator, returns the message.", "quantifier": "every message of every length", "why_tests_cant": "Block boundaries at every multiple of 254 non-zero bytes; unbounded lengths.", "anchors": ["source/postcard-rpc/src/host_client/serial.rs: SerialWireTx::send_inner", "source/postcard-rpc/src/accumulator.rs: CobsAccumulator::feed_ref"]}
{"id": "C21", "title": "The COBS accumulator delivers exactly the frames, however the bytes are chopped", "statement": "Feeding the encoded frames in chunks of any sizes, with the caller always re-feeding the unused remainder, yields each message once, in order, unmodified, and nothing else, provided each encoded frame with terminator fits the buffer.", "quantifier": "every list of messages, every way to chop the byte stream into chunks", "why_tests_cant": "Exponentially many chunkings; unbounded streams.", "anchors": ["source/postcard-rpc/src/accumulator.rs: CobsAccumulator::feed_ref, extend_unchecked"]}
{"id": "C22", "title": "The COBS accumulator resynchronises", "statement": "After arbitrary garbage (invalid COBS, oversized runs, anything), a single terminator brings the accumulator back to its empty state, and all later frames are delivered intact; feeding never panics and always makes progress.", "quantifier": "every buffer size of at least one byte, every prior byte history, every chunking, every later frame list", "why_tests_cant": "All histories.", "anchors": ["source/postcard-rpc/src/accumulator.rs: CobsAccumulator::feed_ref"]}
{"id": "C23", "title": "An oversized frame never surfaces as a message", "statement": "A frame too long for the accumulator's buffer is reported as overfull and no part of it is ever delivered as a message.", "quantifier": "every oversized frame, every chunking", "why_tests_cant": "Only particular tails of oversized frames happen to decode.", "anchors": ["source/postcard-rpc/src/accumulator.rs: CobsAccumulator::feed_ref"]}
{"id": "C24", "title": "The serial transport delivers every valid frame", "statement": "Every frame a peer sends over the serial transport (COBS, zero terminator) that fits the buffer is returned by the receiver once, in order.", "quantifier": "every sequence of frames with a valid header, every chunking of the byte stream", "why_tests_cant": "Frames shorter than nine bytes exist only for some key and sequence widths.", "anchors": ["source/postcard-rpc/src/host_client/serial.rs: SerialWireRx::recv_inner, SerialWireTx::send_inner"]}
{"id": "C25", "title": "Schema comparison decides equality", "statement": "The const comparison of two type schemas returns true exactly when the schemas are structurally identical (names, field names, variant names, order and nesting).", "quantifier": "every pair of schemas of any depth", "why_tests_cant": "Recursive trees of unbounded depth and all constructors.", "anchors": ["source/postcard-rpc/src/uniques.rs: nty_eq, dmt_eq, ntys_eq, vals_eq, vars_eq, var_eq, dmv_eq, str_eq"]}
{"id": "C26", "title": "Collected types are sound and unique", "statement": "The list of types collected for a schema contains only types occurring in it, contains no primitive, contains no type twice, and contains the schema itself when it is not primitive.", "quantifier": "every schema of any depth and width", "why_tests_cant": "All schemas.", "anchors": ["source/postcard-rpc/src/uniques.rs: type_chewer_nty, type_chewer_dmt, cruncher, is_prim"]}
{"id": "C27", "title": "Collecting types never overruns its table", "statement": "The table size computed in advance always suffices, so collecting or merging types never fails at compile time, whatever the schema.", "quantifier": "every schema", "why_tests_cant": "The upper bound and the collector are separate recursions over the schema which must agree for all shapes.", "anchors": ["source/postcard-rpc/src/uniques.rs: unique_types_nty_upper, unique_types_dmt_upper, unique_types_var_upper, type_chewer_nty"]}
{"id": "C28", "title": "Collected types are complete", "statement": "Every non-primitive type occurring anywhere inside a schema is in its collected list.", "quantifier": "every schema", "why_tests_cant": "One branch of eighteen; needs a schema nesting a composite below that branch.", "anchors": ["source/postcard-rpc/src/uniques.rs: type_chewer_dmt"]}
{"id": "C29", "title": "Merging and concatenating tables", "statement": "Merging type lists yields each distinct type of the inputs exactly once and nothing else, in first-occurrence order; concatenating endpoint/topic tables yields all rows in order, standard rows first.", "quantifier": "every list of lists", "why_tests_cant": "All sizes; const array code with manual indices.", "anchors": ["source/postcard-rpc/src/uniques.rs: merge_nty_lists, total_len, combine_with_copy", "source/postcard-rpc/src/macros.rs: concat_arrays!, endpoints!, topics!"]}
{"id": "C30", "title": "A response only completes the request it answers", "statement": "A request returns a response only if a frame arrived whose sequence number equals the request's and whose key equals the endpoint's response key or the error key, compared at the shorter of the length received and the key length the client uses; each arriving frame completes at most one request; each request completes at most once.", "quantifier": "every interleaving of requests, arriving frames (including forged, duplicated, reordered ones), cancellations and subscriptions", "why_tests_cant": "All histories of concurrent use.", "anchors": ["source/postcard-rpc/src/host_client/mod.rs: HostClient::send_resp, send_resp_raw, HostContext::process_did_wake", "source/postcard-rpc/src/host_client/util.rs: in_worker_inner"]}
{"id": "C31", "title": "Responses may arrive in any order", "statement": "If each pending request's response eventually arrives, in any order and mixed with any other traffic, each request gets its own response; none is dropped because another was answered first.", "quantifier": "every set of pending requests, every permutation of responses, every interleaved traffic", "why_tests_cant": "n! orders, unbounded interleavings.", "anchors": ["source/postcard-rpc/src/host_client/mod.rs: send_resp_raw, process_did_wake", "source/postcard-rpc/src/host_client/util.rs: in_worker_inner"]}
{"id": "C32", "title": "Cancelling a request is harmless", "statement": "Dropping a request future at any await point leaves no trace: the waiting entries disappear, later responses to it are discarded, and all other requests behave as if it never existed.", "quantifier": "every history and every point of cancellation", "why_tests_cant": "Cancellation points times histories.", "anchors": ["source/postcard-rpc/src/host_client/mod.rs: send_resp_raw"]}
{"id": "C33", "title": "Concurrent requests carry distinct sequence numbers", "statement": "Any two of fewer than 2^32 consecutive typed requests of a client and its clones carry distinct sequence numbers; the counter wraps without panic.", "quantifier": "every history of requests", "why_tests_cant": "Needs histories of 2^32 requests.", "anchors": ["source/postcard-rpc/src/host_client/mod.rs: HostClient::send_resp"]}
{"id": "C34", "title": "The client adopts the server's key length", "statement": "The first request uses the full key; against a server that always answers with one key length, every request issued after the first response uses that key length, and the client never uses a key length that was neither the full one nor seen in a response.", "quantifier": "every history of requests and responses", "why_tests_cant": "Histories with concurrent requests which captured the old length.", "anchors": ["source/postcard-rpc/src/host_client/mod.rs: send_resp_raw", "source/postcard-rpc/src/header.rs: VarKey::shrink_to"]}
{"id": "C35", "title": "The configured sequence number width is used", "statement": "Requests are sent with the sequence number width that the client was configured with.", "quantifier": "every configuration and every request", "why_tests_cant": "Existing end-to-end tests accept any width, so they cannot tell.", "anchors": ["source/postcard-rpc/src/host_client/mod.rs: HostClient::new_manual_priv, send_resp, send_resp_raw"]}
{"id": "C36", "title": "Closing is final and total", "statement": "Once the client is closed, whether by the user or by a link error, is_closed stays true, both workers can stop at once, and no call waits any more: every pending and every later request, publication and subscribe can end at once with the error for a closed client. Once the workers have stopped it cannot end otherwise (except requests that hold their answer already), and existing subscriptions give what they have received and then end. (In between, calls can still succeed.) Nobody is told so while the client is open.", "quantifier": "every history before closing, every interleaving after", "why_tests_cant": "Races between close, workers and callers.", "anchors": ["source/postcard-rpc/src/host_client/mod.rs: close, is_closed, send_resp_raw, subscribe_multi, subscribe_exclusive, Subscription::recv", "source/postcard-rpc/src/host_client/util.rs: Stopper, in_worker, out_worker"]}
{"id": "C37", "title": "Exclusive subscriptions are exclusive", "statement": "At any time a topic has at most one exclusive subscription receiving its messages; subscribe_exclusive succeeds exactly when no live exclusive subscription exists; the deprecated subscribe ends the previous one.", "quantifier": "every history of subscribe, drop, message, close", "why_tests_cant": "Histories.", "anchors": ["source/postcard-rpc/src/host_client/mod.rs: subscribe, subscribe_exclusive", "source/postcard-rpc/src/host_client/util.rs: in_worker_inner"]}
{"id": "C38", "title": "Exclusive subscriptions receive in order, losing messages only when full", "statement": "The messages an exclusive subscription returns are, in arrival order, messages of that topic that arrived after it subscribed; a message is missing only if the subscription's queue held depth messages when it arrived (zero timeout). This assumes that no other exclusively subscribed topic has the same key at the key length used on the wire (see C40 for what happens otherwise).", "quantifier": "every history of arrivals and receives, every depth", "why_tests_cant": "Unbounded interleavings of producer and consumer.", "anchors": ["source/postcard-rpc/src/host_client/util.rs: in_worker_inner", "source/postcard-rpc/src/host_client/mod.rs: Subscription::recv"]}
{"id": "C39", "title": "Broadcast subscriptions account for every message", "statement": "Each multi-subscriber of a topic sees the messages that arrived since it subscribed in order; if it falls behind it is told how many it missed, and received plus missed equals arrived; subscribers do not affect one another. This assumes that no other broadcast-subscribed topic has the same key at the key length used on the wire.", "quantifier": "every history of arrivals, subscriptions, receives", "why_tests_cant": "Unbounded interleavings.", "anchors": ["source/postcard-rpc/src/host_client/util.rs: in_worker_inner", "source/postcard-rpc/src/host_client/mod.rs: subscribe_multi, MultiSubscription::recv"]}
{"id": "C40", "title": "Dropping one subscription does not affect others", "statement": "When a dropped exclusive subscription is cleaned up, every other subscription stays registered. A subscription counts as received from as long as the user holds it, that is from when it was obtained until it is dropped, whatever becomes of others.", "quantifier": "every set of subscriptions and every arriving frame", "why_tests_cant": "Only key values that collide when compacted show the problem.", "anchors": ["source/postcard-rpc/src/host_client/util.rs: in_worker_inner"]}
{"id": "C41", "title": "Broadcast, exclusive and request traffic do not steal from each other", "statement": "A frame of a topic with both broadcast and exclusive subscribers reaches both kinds; a frame that matches no subscription is offered to pending requests; a frame that matches a subscription is never consumed by a request.", "quantifier": "every frame and every client state", "why_tests_cant": "All states.", "anchors": ["source/postcard-rpc/src/host_client/util.rs: in_worker_inner"]}
{"id": "C42", "title": "The schema stream is complete, ordered and correctly totalled", "statement": "GetAllSchemas publishes every type, endpoint, outgoing and incoming topic of the device exactly once, in that order, with consecutive sequence numbers, then replies with totals that equal the table lengths and an error count equal to the number of items whose transmission failed.", "quantifier": "every device table of fewer than 2^16 items, every pattern of send failures", "why_tests_cant": "All tables and failure patterns.", "anchors": ["source/postcard-rpc/src/server/mod.rs: Sender::send_all_schemas"]}
{"id": "C43", "title": "The host reconstructs the device's tables", "statement": "If no item is lost (and no second report is being requested at the same time), get_schema_report returns exactly the device's endpoints and topics in order, each with types that hash to the advertised keys, together with all advertised types; it fails if a type is missing.", "quantifier": "every device table, every hash function", "why_tests_cant": "All tables; depends on hash matching.", "anchors": ["source/postcard-rpc/src/host_client/mod.rs: get_schema_report, SchemaReport::add_endpoint, add_topic_in, add_topic_out, add_type", "source/postcard-rpc/src/server/mod.rs: Sender::send_all_schemas"]}
{"id": "C44", "title": "Lost schema data is detected", "statement": "If any schema item is lost on the way, get_schema_report does not return Ok with an incomplete report.", "quantifier": "every device table and every subset of lost items", "why_tests_cant": "2^n subsets of lost items.", "anchors": ["source/postcard-rpc/src/host_client/mod.rs: get_schema_report"]}
{"id": "C45", "title": "Formatted logging never panics", "statement": "send_log_fmt handles formatted text of any length with any transmit buffer size: text too long for the buffer is truncated (ending in '...'), and nothing panics.", "quantifier": "every buffer size, every sequence of formatted fragments", "why_tests_cant": "Needs specific combinations of buffer size and text length.", "anchors": ["source/postcard-rpc/src/server/impls/embassy_usb_v0_4.rs: send_log_fmt, SliceWriter::write_str, actual_varint_max_len, varint_usize"]}
{"id": "C46", "title": "Formatted logs decode to the text", "statement": "When the text fits, the log frame decodes, with a standard postcard string decoder, to exactly the formatted text.", "quantifier": "every text, every buffer size up to the limit where the length prefix width is right", "why_tests_cant": "The length prefix is a padded, non-canonical varint whose width depends on the buffer, not on the text.", "anchors": ["source/postcard-rpc/src/server/impls/embassy_usb_v0_4.rs: send_log_fmt, varint_usize, actual_varint_max_len"]}
{"id": "C47", "title": "Log sequence numbers are consecutive", "statement": "The n-th log message of a server carries sequence number n modulo 2^16, whichever mix of string and formatted logging produced it and whether or not transmission succeeded.", "quantifier": "every history of log calls", "why_tests_cant": "Needs 65536 logs to see the wrap, and all mixes.", "anchors": ["source/postcard-rpc/src/server/impls/embassy_usb_v0_4.rs: send_log_str, send_log_fmt"]}
{"id": "C48", "title": "Host USB receive recovery is bounded and conserves requests", "statement": "The USB receive loop keeps exactly four requests in flight, gives up after more than ten consecutive stalls, resets that count at each success, fails at once on any other error, and never waits on an empty queue. In the whole system, over the life of a connection: the client gives the connection up by itself only if a transfer failed for another reason, a halt could not be cleared, or eleven of the transfers whose result it looks at failed in a row.", "quantifier": "every sequence of completion results", "why_tests_cant": "All sequences of stalls and successes.", "anchors": ["source/postcard-rpc/src/host_client/raw_nusb.rs: NusbWireRx::recv_inner"]}
{"id": "C49", "title": "End-to-end RPC correctness", "statement": "With a client and a server connected by links that may lose, delay and reorder frames, and may cut short what the device sends, but never duplicate or otherwise alter frames, for every interleaving of requests, cancellations, publications and server steps, each request that returns a reply returns what its own endpoint's handler computed for (or its spawned task sent about) that very request's body (all of it unless it was cut short, else a prefix), and no handler is run more than once per request; provided fewer than 2^32 requests are made and the error key is not among the response keys at the key length in use (C50).", "quantifier": "every schedule, every set of endpoints with computed key length, every handler behaviour", "why_tests_cant": "Unbounded schedules and concurrency; composition of all layers.", "anchors": ["source/postcard-rpc/src/host_client/mod.rs: send_resp", "source/postcard-rpc/src/host_client/util.rs: in_worker_inner, out_worker_inner", "source/postcard-rpc/src/server/mod.rs: Server::run", "source/postcard-rpc/src/server/dispatch_macro.rs: handle"]}
{"id": "C50", "title": "Errors are never mistaken for responses", "statement": "At the key length computed by the library, the error key differs from every response and outgoing topic key, so an error frame can never complete a request as if it were its response, and requests of every endpoint can be issued.", "quantifier": "every dispatcher configuration", "why_tests_cant": "Depends on hash values of user types; the error key is not in the checked tables.", "anchors": ["source/postcard-rpc/src/server/dispatch_macro.rs: sizer", "source/postcard-rpc/src/host_client/mod.rs: send_resp_raw", "source/postcard-rpc/src/standard_icd.rs: ERROR_KEY"]}
{"id": "C51", "title": "A request only fails with a wire error if the server refused that request", "statement": "A request returns a wire error only if the server produced that error for this very request.", "quantifier": "every history of requests and publications", "why_tests_cant": "Needs a publication to an unknown topic whose user-chosen sequence number equals that of a pending request.", "anchors": ["source/postcard-rpc/src/host_client/mod.rs: publish, send_resp_raw", "source/postcard-rpc/src/server/dispatch_macro.rs: handle"]}
{"id": "C52", "title": "Send timeout scales with the message", "statement": "The time allowed for sending a message is the configured milliseconds per frame (clamped to 1..60000) times the number of 64-byte packets its bytes occupy, rounded up; it is never zero for a non-empty message and never overflows a 32-bit usize for messages up to 4 MiB.", "quantifier": "every message length and every setting", "why_tests_cant": "Overflow only for extreme values.", "anchors": ["source/postcard-rpc/src/server/impls/embassy_usb_v0_4.rs: set_timeout_ms_per_frame, send_all"]}
{"id": "C53", "title": "The in-memory transport is lossless and bounds its reads", "statement": "The channel transport delivers messages in order and unmodified; a message larger than the receive buffer is reported as too large and consumed, and the next is unaffected; a closed peer is reported as closed, after all queued messages.", "quantifier": "every sequence of messages and buffer size", "why_tests_cant": "All sequences.", "anchors": ["source/postcard-rpc/src/server/impls/test_channels.rs: ChannelWireTx::send, ChannelWireRx::receive", "source/postcard-rpc/src/host_client/test_channels.rs"]}
{"id": "C54", "title": "Device messages of up to 1024 bytes reach the nusb host whole", "statement": "Every message of up to 1024 bytes sent by the embassy USB server arrives at a nusb host as one transfer (an empty transfer follows one of exactly 1024 bytes); a longer message is never delivered whole: the host's first transfer is its first 1024 bytes.", "quantifier": "every sequence of messages", "why_tests_cant": "Message lengths at and beyond the transfer size; all sequences.", "anchors": ["source/postcard-rpc/src/server/impls/embassy_usb_v0_4.rs: send_all", "source/postcard-rpc/src/host_client/raw_nusb.rs: MAX_TRANSFER_SIZE, NusbWireRx::recv_inner"]}
{"id": "C55", "title": "Stall recovery loses no received data", "statement": "Every transfer that completes successfully is handed to the client, once and in order, including across recovery from a stall.", "quantifier": "every sequence of completion results", "why_tests_cant": "Needs a data transfer completing between the stall and the cancellation of the other requests.", "anchors": ["source/postcard-rpc/src/host_client/raw_nusb.rs: NusbWireRx::recv_inner"]}
{"id": "C56", "title": "A closed serial port is reported", "statement": "When the serial port fails or reaches end of file, receive returns an error, after the messages that arrived before.", "quantifier": "every history of reads", "why_tests_cant": "A test would have to wait forever to see that nothing is reported.", "anchors": ["source/postcard-rpc/src/host_client/serial.rs: SerialWireRx::recv_inner"]}
{"id": "C57", "title": "Device messages are sent exactly or refused", "statement": "Whatever stale bytes the transmit buffer holds, a message that fits is transmitted as exactly its header followed by its body, and one that does not fit is refused with nothing transmitted.", "quantifier": "every buffer content, header and body", "why_tests_cant": "All lengths around the buffer size and all stale contents.", "anchors": ["source/postcard-rpc/src/server/impls/embassy_usb_v0_4.rs: send, send_raw"]}
{"id": "C58", "title": "A broadcast subscriber gets the depth it asks for", "statement": "A multi-subscriber that never has more messages waiting than the depth it passed to subscribe_multi is never told that it missed messages.", "quantifier": "every history of arrivals, subscriptions and receives", "why_tests_cant": "Depends on the order in which subscribers of the same topic arrived and on their depths.", "anchors": ["source/postcard-rpc/src/host_client/mod.rs: subscribe_multi"]}
{"id": "C59", "title": "Outgoing frames leave in the order accepted, each once", "statement": "Whatever requests and publications run concurrently, the client hands the transport exactly the frames it accepted, in the order accepted, each at most once and unmodified but for the key length; nothing is invented, and while the sending worker lives nothing accepted is lost.", "quantifier": "every interleaving of requests, publications, cancellations and worker steps, every channel depth", "why_tests_cant": "All histories of concurrent use.", "anchors": ["source/postcard-rpc/src/host_client/mod.rs: send_resp_raw, publish_raw", "source/postcard-rpc/src/host_client/util.rs: out_worker"]}
{"id": "C60", "title": "The host can describe every device the macros accept", "statement": "For every device built with endpoints!, topics! and define_dispatch!, if nothing is lost then get_schema_report resolves every key of every row to a type and returns a report.", "quantifier": "every table of rows, every payload type", "why_tests_cant": "Depends on which primitive types the host knows for all tables.", "anchors": ["source/postcard-rpc/src/host_client/mod.rs: SchemaReport::default, add_endpoint, add_topic_in, add_topic_out", "source/postcard-rpc/src/uniques.rs: is_prim"]}
{"id": "C61", "title": "WebUSB host to device framing is lossless", "statement": "Frames sent through the WebUSB transport, each fitting the device's receive buffer, are received by the device one by one, unmodified and in order.", "quantifier": "every sequence of non-empty frames, every receive buffer length", "why_tests_cant": "Only particular lengths reveal a missing end-of-transfer marker, and what then arrives depends on the frames that follow.", "anchors": ["source/postcard-rpc/src/host_client/webusb.rs: WireTx::send", "source/postcard-rpc/src/server/impls/embassy_usb_v0_4.rs: WireRx::receive"]}
{"id": "C62", "title": "WebUSB device to host framing", "statement": "For every transfer_max_length, device messages up to that length arrive at the WebUSB host one by one and unmodified (one that fills a transfer exactly is followed by an empty frame, which the client ignores); a longer one is never delivered as if it were whole: it is cut at that length or ends the connection with an error, after all earlier messages were delivered.", "quantifier": "every sequence of messages and every transfer_max_length", "why_tests_cant": "All combinations of message lengths, transfer length and packet size.", "anchors": ["source/postcard-rpc/src/host_client/webusb.rs: WireRx::receive", "source/postcard-rpc/src/server/impls/embassy_usb_v0_4.rs: send_all"]}
{"id": "C63", "title": "Values survive serialization", "statement": "Every value of every type expressible as a schema is deserialized, as that type, to exactly itself, whatever bytes follow; different values have different bytes; and whatever bytes arrive, deserialization yields nothing or a value of the type asked for. An integer is read from exactly the bytes that are its seven-bit groups, low group first, superfluous zero groups allowed up to the width of the type.", "quantifier": "every schema type, value and received byte string", "why_tests_cant": "Unbounded nesting of types and values; every byte string.", "anchors": ["source/postcard-rpc/src/host_client/mod.rs: send_resp, subscribe recv (postcard::to_stdvec, from_bytes)", "source/postcard-rpc/src/server/dispatch_macro.rs: endpoint arms (postcard::from_bytes)"]}
{"id": "C64", "title": "An incomplete message is never taken for a complete one", "statement": "A proper prefix of a serialized message is refused by deserialization, for user types and for the library's own errors, schema messages and totals.", "quantifier": "every type, value and cutting point", "why_tests_cant": "Every cutting point of every message of every type.", "anchors": ["source/postcard-rpc/src/host_client/mod.rs: send_resp_raw, send_resp", "source/postcard-rpc/src/standard_icd.rs: WireError, SchemaData, SchemaTotals"]}
{"id": "C65", "title": "The library's own messages arrive as sent", "statement": "Every wire error, every schema message (with arbitrarily nested schemas) and every totals message is deserialized by the host to the very message the server sent.", "quantifier": "every wire error, schema, table row and total", "why_tests_cant": "Schemas nest without bound.", "anchors": ["source/postcard-rpc/src/standard_icd.rs: WireError, SchemaData, SchemaTotals", "source/postcard-rpc/src/lib.rs: TopicDirection"]}
{"id": "C66", "title": "A typed call returns the value its own handler computed", "statement": "Over links that may lose, delay, reorder and cut short frames: a value that send_resp returns is exactly the value the server's handler for that endpoint computed from the caller's argument in a run for this very call; a wire error it returns is exactly the error with which the server refused this very call; and as long as nothing is cut short a call never fails because a reply or error could not be deserialized, nor with an unexpected-response error.", "quantifier": "every accepted device configuration, all request and response types, all arguments, all handlers (returning values of their response type), all interleavings, losses, reorderings and cuts", "why_tests_cant": "Unbounded histories of a concurrent client and server over a faulty link, for all types.", "anchors": ["source/postcard-rpc/src/host_client/mod.rs: send_resp, send_resp_raw", "source/postcard-rpc/src/server/dispatch_macro.rs: define_dispatch", "source/postcard-rpc/src/server/mod.rs: Server::run, Sender::reply"]}
{"id": "C67", "title": "Every handler run is due to one call", "statement": "Every run of an endpoint or topic handler on the server is due to one call this client made of that very endpoint, or one publication it made to that very topic: the handler works on the value the caller's body decodes to, under the call's sequence number; no call causes two runs; and if the link to the server keeps order, handlers run in the order in which the client accepted the calls.", "quantifier": "every accepted device configuration, all handlers, all interleavings of client, worker, server and link, with losses, reorderings and cuts", "why_tests_cant": "Unbounded histories of a concurrent client and server over a faulty link.", "anchors": ["source/postcard-rpc/src/host_client/mod.rs: send_resp, publish", "source/postcard-rpc/src/server/dispatch_macro.rs: define_dispatch", "source/postcard-rpc/src/server/mod.rs: Server::run"]}
{"id": "C68", "title": "Subscribers are given what the server sent on their topic", "statement": "The messages the holder of a subscription receives are messages the server transmitted under that topic's key, none more often than it was transmitted, unchanged unless the link cut them short (and then only their end is missing); if the link keeps order, they are received in the order of transmission.", "quantifier": "every accepted device configuration, all histories of client and server, both kinds of subscription, all losses, reorderings and cuts", "why_tests_cant": "Unbounded histories with many subscriptions, concurrent publications and a faulty link.", "anchors": ["source/postcard-rpc/src/host_client/mod.rs: subscribe_multi, subscribe_exclusive, Subscription::recv, MultiSubscription::recv", "source/postcard-rpc/src/server/mod.rs: Sender::publish"]}
{"id": "C69", "title": "Subscribers are given what was published on their topic", "statement": "Every message the holder of a subscription to a topic receives was published on that very topic by a handler that ran or a task that was spawned (because of something this client sent) or is part of the schema report; in particular an error or a reply is never taken for a message of a topic. A typed subscription yields exactly published values, in order if the link keeps order, and skips no message unless the link cut it short.", "quantifier": "every accepted device configuration, all handlers, all message types, both kinds of subscription, all interleavings, losses, reorderings and cuts", "why_tests_cant": "Unbounded histories; whether keys are confused depends on the whole set of keys and on the key length the library computes.", "anchors": ["source/postcard-rpc/src/server/mod.rs: Sender::publish, Sender::error", "source/postcard-rpc/src/host_client/mod.rs: Subscription::recv, MultiSubscription::recv", "source/postcard-rpc/src/server/dispatch_macro.rs: sizer"]}
{"id": "C70", "title": "Every call returns", "statement": "Left to themselves, client and server come to rest: they cannot be busy for ever without new requests. Once they are, and the server is still serving, every request that was made and whose future was not dropped has returned, unless its own frame or an answer to it was lost or cut on the way, whatever else was lost; and if nothing was lost, unless the client was closed it has returned an answer of the server: the reply or a wire error. The server keeps serving unless a frame it sent failed with a closed link or a timeout. No order in which frames are carried and futures, workers and tasks are run leaves a call hanging.", "quantifier": "every accepted device configuration, all handlers (spawned ones answering), all interleavings of client, workers, server, tasks and link", "why_tests_cant": "A call that hangs is visible only as the absence of an event in an unbounded history of a concurrent system.", "anchors": ["source/postcard-rpc/src/host_client/mod.rs: send_resp_raw", "source/postcard-rpc/src/host_client/util.rs: in_worker, out_worker", "source/postcard-rpc/src/server/mod.rs: Server::run", "source/postcard-rpc/src/server/dispatch_macro.rs: define_dispatch"]}
{"id": "C71", "title": "Client and device over USB are as good as over a link", "statement": "With the nusb client and the embassy-usb device, however the bytes of the frames are divided into packets and transfers, wherever a send is interrupted, however often IN transfers fail between messages, at whatever packet the workers stop, and whatever tasks transmit while handlers wait: what the user of the client and the handlers of the device see is what they could have seen over a link that carries whole frames, in order, cutting one short only when the device was interrupted while sending it, losing on the way to the device only frames that do not fit its buffer, and on the way back, unless a transfer failed, only messages the device did not send completely. Hence a reply is the answer the endpoint's own handler gave to that very request, handlers run at most once per call and in the order of the calls, subscribers are given what was sent under their topic, in that order, and a typed caller gets the value computed from its argument.", "quantifier": "every accepted device configuration, all handlers, all outcomes of packet writes, all interleavings of packets, transfers, errors, client, workers, server and tasks", "why_tests_cant": "A packet-level interleaving that mixes two frames needs a particular coincidence of lengths, interruptions and transfer errors; tests run the channel transport or a healthy bus.", "anchors": ["source/postcard-rpc/src/host_client/raw_nusb.rs: NusbWireTx::send_inner, NusbWireRx::recv_inner", "source/postcard-rpc/src/server/impls/embassy_usb_v0_4.rs: EUsbWireTx, EUsbWireRx", "source/postcard-rpc/src/server/mod.rs: Server::run", "source/postcard-rpc/src/host_client/util.rs"]}
{"id": "C72", "title": "Every call returns over USB", "statement": "Left to itself, the system of nusb client and embassy-usb device comes to rest. Once it has, if no transfer failed and the server is still serving, every request that was made and not dropped has returned, except one whose own frame did not fit the receive buffer of the device or an answer to which was not sent completely; hence all have returned if all messages were sent completely and all requests fit; and unless the client was closed it has returned an answer of the server.", "quantifier": "every accepted device configuration, all handlers (spawned ones answering), all interleavings of packets, transfers, client, workers, server and tasks", "why_tests_cant": "A frame whose last packet is never recognised as such hangs the call without any event that a test could observe; it depends on lengths modulo the packet size.", "anchors": ["source/postcard-rpc/src/host_client/raw_nusb.rs", "source/postcard-rpc/src/server/impls/embassy_usb_v0_4.rs", "source/postcard-rpc/src/host_client/mod.rs: send_resp_raw", "source/postcard-rpc/src/server/mod.rs: Server::run"]}
{"id": "C73", "title": "Waiting handlers and busy tasks do not disturb each other", "statement": "The server waits in every transmission, of its own and of handlers, and while it waits spawned and background tasks transmit and the client goes on. What the client and the handlers see is nevertheless what they could have seen had every frame been dispatched at once: the same calls return the same, the same handlers run in the same order, the same frames are transmitted. Hence, with any interleaving of waiting handlers and tasks: a reply is the answer the endpoint's own handler or task gave to that very request, handlers run for calls of the client only and at most once each, subscribers are given what was transmitted under their topic in the order of transmission, a typed caller gets the value computed from its argument, and every call returns unless its own frame or an answer to it was lost.", "quantifier": "every accepted device configuration, all handlers, spawned tasks and background tasks with any number of transmissions, all results of transmissions, all interleavings of server, tasks, client, workers and link", "why_tests_cant": "Interleavings of awaits are not under a test's control; an answer that is mixed up needs a task transmitting between two particular awaits of a handler.", "anchors": ["source/postcard-rpc/src/server/dispatch_macro.rs: handle", "source/postcard-rpc/src/server/mod.rs: Server::run, Sender", "source/postcard-rpc/src/host_client/mod.rs: send_resp_raw"]}
{"id": "C74", "title": "A new client gets no answer meant for an earlier one", "statement": "When a client goes away and another one connects to the same device, which goes on running with its context and its tasks, the replies that the new client gets are the answers to its own requests, worked out since it connected; handlers run for its calls only, subscriptions are given what was transmitted since, and calls return as on a new device. Sequence numbers start from 0 with each client, so this holds if the device is settled when the client connects: nothing in the link, no frame being dispatched, no task that has yet to answer. It is false otherwise: each of these four conditions is needed.", "quantifier": "any number of clients one after another, every accepted device configuration, all handlers and tasks, all behaviours of the network, all states in which one client is replaced by the next", "why_tests_cant": "Tests create the server and the client together; an answer crosses from one connection to the next only if a client disappears at a particular moment of a handler's work and the next one calls the same endpoint with the same sequence number.", "anchors": ["source/postcard-rpc/src/host_client/mod.rs: HostClient (sequence numbers)", "source/postcard-rpc/src/server/mod.rs: Server::run", "example/firmware/src/bin/comms-02.rs: main loop"]}
{"id": "C75", "title": "A subscriber that keeps up misses nothing", "statement": "From the moment a subscription is handed out, every message of its topic that is transmitted, or was already on its way, is given to the subscriber exactly once, or is held for it by the client, or is still on its way; in the order of transmission if the link keeps order. This holds for an exclusive subscription if the client waits for room without running out of time, or if the user never falls more than the asked depth behind; for a shared subscription if the user was never told of missed messages, and a user that subscribed first and never falls more than the asked depth behind is not told so. Once the system has come to rest and the user has found the subscription empty, it has been given everything. Required: the link loses nothing on the way to the client, receiving does not end, the subscription is kept, and no other subscribed topic looks the same at the key length in use.", "quantifier": "every accepted device configuration, all handlers and tasks, both kinds of subscription, all depths, all histories before and after the subscription, all interleavings", "why_tests_cant": "A missed message is the absence of an event; it depends on how deliveries, waiting for room, and receiving interleave over a history of any length.", "anchors": ["source/postcard-rpc/src/host_client/mod.rs: subscribe_exclusive, subscribe_multi, Subscription::recv, MultiSubscription::recv", "source/postcard-rpc/src/host_client/util.rs: in_worker", "source/postcard-rpc/src/server/mod.rs: Sender::publish"]}
{"id": "C76", "title": "Discovery describes the device it asked", "statement": "get_schema_report subscribes to the schema topic, asks for the schemas, and collects what it hears until its timer runs out. If it returns a report, the endpoints and topics of the report are exactly those of the device at the other end, in its order, every type it names is known to the host or was sent by the device, and this whatever the link lost or cut, however the subscription lagged, and however early the timer ran out. If the link to the client loses nothing, the subscription was made before the request and its user kept up and listened until the reply, then a report is returned and its types, too, are those of the device. Required: the client makes no other request for the schemas.", "quantifier": "every accepted device configuration with fewer than 65536 items, all handlers and tasks that leave the schema topic alone, all histories and interleavings, all losses and cuts on the way to the client", "why_tests_cant": "The report is put together from a stream of messages and a separate reply that cross the dispatcher, the transport, the receiving task, a broadcast channel and a timer; a test sees one interleaving on a link that loses nothing.", "anchors": ["source/postcard-rpc/src/host_client/mod.rs: get_schema_report", "source/postcard-rpc/src/host_client/util.rs: in_worker", "source/postcard-rpc/src/server/mod.rs: Sender::send_all_schemas", "source/postcard-rpc/src/server/dispatch_macro.rs: define_dispatch!"]}
{"id": "C77", "title": "The dispatcher and the tasks do not get in each other's way", "statement": "Everything the server does is due to one of its threads: the dispatcher with the handlers it runs, the tasks there from the start, and the tasks it spawned. Every task transmits what its own program says, in its own order, each message once; when the system has come to rest, all of it. Without the tasks' transmissions, what remains is exactly what a dispatcher does that handles the frames the server took one after the other, each at once and with no task around, if its transmissions end in the same way. A subscriber that misses nothing hears all that a task says on its topic after the subscription, in the task's order.", "quantifier": "every dispatcher, all handlers, background tasks and spawned tasks, all interleavings of their transmissions with the dispatcher's, all results of transmissions, histories of any length", "why_tests_cant": "Interleavings of tasks with a dispatcher that waits in each transmission are unboundedly many, and a lost, doubled or misattributed transmission shows only in some of them.", "anchors": ["source/postcard-rpc/src/server/mod.rs: Server::run, Sender::publish, Sender::reply", "source/postcard-rpc/src/server/dispatch_macro.rs: define_dispatch!, ep_arm, tp_arm"]}
{"id": "C78", "title": "Over bounded channels nothing blocks for good", "statement": "A client and a server joined by two bounded channels hold each other up while a channel is full: the server waits in a transmission for the client to receive, the client's sending task waits for the server, and tasks wait for room. Whatever the positive capacities, this never deadlocks: left alone, the system comes to rest after finitely many steps, and at rest no transmission waits, every task has finished, the server has received everything unless run returned, and the client has taken everything sent to it. Every call has then returned with the answer of the server, unless its frame was too long for the server's buffer, which is dropped without a word. Stopping the server or closing the client ends run; dropping the server closes the client, though not before it has received all that the server and its tasks sent, and every call then returns. While a stopped server is kept, though, calls wait for ever. The channels never hold more than their capacity, and replies, runs and messages to subscribers are as over an unbounded link: whole, in order, none missed by a subscriber that keeps up.", "quantifier": "every accepted device configuration, all handlers and tasks, all positive capacities and buffer sizes, all interleavings, stopping, closing and dropping at any moment, either choice of a select", "why_tests_cant": "A deadlock needs both channels to be full at once in a particular interleaving; tests use channels with room for all that they send.", "anchors": ["source/postcard-rpc/src/host_client/test_channels.rs", "source/postcard-rpc/src/server/impls/test_channels.rs", "source/postcard-rpc/src/server/mod.rs: Server::run", "source/postcard-rpc/src/host_client/util.rs: in_worker, out_worker"]}
{"id": "C79", "title": "Every accepted call is handled, exactly once", "statement": "Once a request or a publication has been accepted for sending by a client that stays open, and the system has come to rest, its handler has run exactly once - if the device has a handler for that endpoint or topic and the body can be decoded. The only calls that are left out are as many as frames were lost by the link (and they are those whose frames were lost); over the in-process channels and over USB nothing but a frame too long for the device's buffer is lost, and the handlers run in the order in which the calls were accepted. No handler ever runs that was not called. At rest every call that was made, and was not cancelled or refused as a duplicate, has been accepted. This asks for a server that was not stopped by a failed transmission of a reply and an executor with room for every spawned task; without room a request is refused with an error instead.", "quantifier": "every accepted device configuration, all handlers and tasks, all histories of calls, all interleavings, losses and reorderings of the link, all channel capacities and buffer sizes", "why_tests_cant": "A call that is dropped, or handled twice, somewhere between two queues in one particular interleaving shows up in no test that sends one message at a time; a lost publication has no answer whose absence could be noticed.", "anchors": ["source/postcard-rpc/src/host_client/mod.rs: send_resp, publish", "source/postcard-rpc/src/host_client/util.rs: out_worker", "source/postcard-rpc/src/server/mod.rs: Server::run", "source/postcard-rpc/src/server/dispatch_macro.rs", "source/postcard-rpc/src/server/impls/test_channels.rs", "source/postcard-rpc/src/server/impls/embassy_usb_v0_4.rs: receive"]}
{"id": "C80", "title": "Letting go of the client loses nothing it had accepted", "statement": "All clones of a client share one connection, and futures borrow the clone they were made with. As long as one clone is alive nobody is told that the client is closed, unless the user calls close or the transport fails. After the last clone is dropped, everything that was accepted for sending is still sent, in order, before the connection ends; and every call that was not dropped had been accepted. Then the client is closed, both workers end, Server::run at the other end of bounded channels returns, and the whole comes to rest. A client that only publishes can be dropped right after its last publication: each is handled, once, in order. With requests among the calls this can fail: if the caller of a request gave up, the answer can not be delivered once the client is gone, run returns, and publications behind the request are never handled. wait_closed returns only once the client is closed. A clone can be dropped once every call has returned or was dropped.", "quantifier": "any number of clones, made, used and dropped in any order; all histories of calls, all interleavings; for the part about the server every accepted device configuration, all handlers and tasks, all positive capacities and buffer sizes", "why_tests_cant": "That dropping the last clone flushes, while close does not, depends on which of two events a worker sees first after everybody has let go, when no code of the user is left to look.", "anchors": ["source/postcard-rpc/src/host_client/mod.rs: HostClient (Clone), close, is_closed, wait_closed", "source/postcard-rpc/src/host_client/util.rs: Stopper, out_worker, in_worker", "source/postcard-rpc/src/server/mod.rs: Server::run"]}
{"id": "C81", "title": "Connecting over USB reaches the interface that was asked for", "statement": "Connecting through nusb uses the first device for which the user's function says yes, and on it the first interface that was asked for (class 0xFF, or the user's choice), through a bulk endpoint of that interface in each direction; the packet size is the smallest of its bulk OUT endpoints, so that with the sizes USB allows every message that fills its last packet is recognised as such. Connecting fails only if there is no such device, interface or endpoint, or it cannot be opened or claimed. A device set up by the embassy-usb code of this crate, whatever interfaces the application adds, is always reached at the interface this crate declared, with the packet size the framing relies on. False in general: the interface is searched by position but claimed by number, so with interfaces not listed by number another one is used; and endpoints of inactive alternate settings may be chosen. In a browser the device has the requested vendor id, and the first device allowed before is preferred.", "quantifier": "all lists of devices, all descriptors (any number of interfaces, alternate settings and endpoints), all user predicates, both platforms", "why_tests_cant": "Tests run without USB hardware; which descriptors a host will meet is not under the control of this crate.", "anchors": ["source/postcard-rpc/src/host_client/raw_nusb.rs: try_new_raw_nusb, try_new_raw_nusb_with_interface, try_from_nusb_and_interface", "source/postcard-rpc/src/server/impls/embassy_usb_v0_4.rs: WireStorage::init", "source/postcard-rpc/src/host_client/webusb.rs: WebUsbWire::new"]}
{"id": "C82", "title": "The fake server for tests tells the truth about the client", "statement": "A test that uses local_setup receives, through recv_from_client, exactly the frames of the calls the client accepted, whole, in order and once each, never BadFrame; as long as it only uses reply and publish, with the full keys the callers gave. The client receives exactly what the test sent, in order. A reply with the key and sequence number of a request that was accepted before returns from that request, unless the caller gave up, the client was closed, or the test sent another answer to it. After cause_fatal_error at most one more frame passes in each direction (one can: the check at the start of a send or receive does not see an error that happens while it waits). After a fatal error, or when the server is dropped, the client is closed, every call returns, and the test is told TxClosed, after the frames still in the channel, and RxClosed.", "quantifier": "all histories of calls and of the test's actions, all interleavings, all positive bounds, any bytes sent by the test unless said otherwise", "why_tests_cant": "It is the code that the tests rely on; whether the select in its wire picks the error or the frame is random.", "anchors": ["source/postcard-rpc/src/test_utils.rs: local_setup, LocalFakeServer, LocalRx::receive, LocalTx::send"]}
{"id": "C83", "title": "The example firmware's sensor stream", "statement": "In the example firmware, at most one acceleration stream runs: a request to start another is refused exactly while the task of an earlier one has not ended. Each stream numbers its samples 0, 1, 2, ... modulo 256, and sends the readings of the sensor, each once, in order. After a stop answered 'was running' at most one more sample is published until a new stream is confirmed, after a stop answered 'was not' none, and a stopped stream ends within three steps of its task. The task is never stuck: it always waits for something that can come, never for a lock that nobody will release.", "quantifier": "all interleavings of requests to start and stop with the task, all readings, all failures of transmissions, histories of any length", "why_tests_cant": "The flag, the mutex and the task are shared by handlers that interleave at every await; a test on hardware sees few of the orders.", "anchors": ["example/firmware/src/bin/comms-02.rs: accelerometer_handler, accelerometer_stop_handler, STOP"]}
{"id": "C84", "title": "A confirmed start streams until it is stopped", "statement": "A start of the example firmware's sensor stream that was confirmed streams, with the range asked for, until a stop is asked for or a sample cannot be sent; and once a stop has been answered a new stream can be started. False: a stop that is handled while the reply to a start is being sent, when that reply then fails, ends the next stream before its first sample; the range asked for is never used; a start right after a stop is refused.", "quantifier": "all interleavings of requests to start and stop with the task, all failures of transmissions, histories of any length", "why_tests_cant": "The leftover flag needs a stop to fall within one failing transmission.", "anchors": ["example/firmware/src/bin/comms-02.rs: accelerometer_handler, accelerometer_stop_handler, STOP"]}
{"id": "C85", "title": "Every light shows what it was last set to", "statement": "In the example firmware, after any requests to set one light or all of them, each of the 24 lights has the colour of the last request that names it (black if none); a request for a light that does not exist is answered with BadPosition and changes nothing; no request makes the firmware panic; and after a request that succeeded the strip was written.", "quantifier": "all sequences of requests, all positions and colours", "why_tests_cant": "Indexing and bounds over unboundedly many sequences of requests.", "anchors": ["example/firmware/src/bin/comms-02.rs: set_led_handler, set_all_led_handler"]}
{"id": "C86", "title": "A device without the standard tables serves its endpoints and the standard ones", "statement": "A device whose endpoint table leaves the standard endpoints out (omit_std) still answers the standard ping and the request for its tables, and every call - to an endpoint of its own or to a standard one - is answered by the endpoint that was called. False: the standard keys then take no part in choosing the key length, but the dispatcher compares with them first. A request goes to the built-in ping if its key looks like the ping key at the key length of the device, else to the built-in report if it looks like that one's, else to its own handler. So if they do look alike the handler of the device never runs, and the call waits forever or, if the response keys look alike as well, returns the answer of ping. If the standard keys stand apart at that length, everything is as for a device with the standard tables.", "quantifier": "all tables, handlers and key values, all histories of calls, all interleavings", "why_tests_cant": "Whether two keys look alike depends on the hashes of the user's types and paths: a test with one set of types says nothing about another.", "anchors": ["source/postcard-rpc/src/server/dispatch_macro.rs: handle, sizer", "source/postcard-rpc/src/macros.rs: endpoints! (omit_std)", "example/workbook-icd/src/lib.rs: ENDPOINT_LIST", "example/workbook-host/src/client.rs: ping"]}
{"id": "C87", "title": "Subscribers and discovery over USB", "statement": "Over USB, packet by packet, a subscriber that keeps its subscription, and is patient or keeps up, is given the messages of its topic that reached the host since it subscribed, in the order in which the device and its tasks transmitted them; once the system is at rest and the subscriber has found nothing more, these and those that reached the host before the subscription are all that was transmitted, each once. In particular it was given all that each task of the device had to say on the topic since then, in the task's order. A report of the device's schemas that the host is given is the device's, whatever was interrupted and whichever transfers failed between messages; and if the device sent its messages completely and no transfer failed, a client that subscribed before it asked, and kept up, gets the complete report.", "quantifier": "every accepted device configuration, all handlers and tasks, both kinds of subscription, all depths, all splits into packets, all histories before and after the subscription, all interleavings", "why_tests_cant": "A message goes through the device's transmit buffer, packets, the host's transfers, completions, the receiving task and the subscription's channel; a test sees few of the orders in which these proceed.", "anchors": ["source/postcard-rpc/src/server/impls/embassy_usb_v0_4.rs: EUsbWireTx::send", "source/postcard-rpc/src/host_client/raw_nusb.rs: NusbWireRx::receive", "source/postcard-rpc/src/host_client/mod.rs: subscribe_exclusive, subscribe_multi, get_schema_report", "source/postcard-rpc/src/host_client/util.rs: in_worker"]}
{"id": "C88", "title": "Logs from the device's call to the host's terminal", "statement": "A log call that transmits does so whatever the transmit buffer held before, and transmits what sending a message with that text on the logging topic would. If only one task of the device logs, then the host program prints, over USB, the texts of its log calls, in order and without gaps, starting with the first whose message had not reached the host when it subscribed; its loop goes on, and once the system is at rest the last text has been printed; and the messages bear consecutive numbers, modulo 2^16. If several tasks log, the texts of each are printed in its own order, among those of others. Every call of the logging example's firmware transmits, for all counts, and its texts are the ones its source says. (Not so: that the host program prints as long as the device is connected; it stops, and says the device is disconnected, as soon as it falls 65 messages behind.)", "quantifier": "every accepted device configuration, all other handlers and tasks, all sequences of log calls, all lengths of keys, all splits into packets, all histories before and after the subscription, any number of rounds of the example", "why_tests_cant": "Formatting in place, the shared counter, packets, transfers, the subscription's channel and the printing loop each have their own tests at best; none runs all of them together, in all orders, or for all texts.", "anchors": ["source/postcard-rpc/src/server/impls/embassy_usb_v0_4.rs: send_log_str, send_log_fmt", "source/postcard-rpc/src/host_client/mod.rs: MultiSubscription::recv", "example/firmware/src/bin/logging.rs: logging_task", "example/workbook-host/src/bin/logging.rs: main"]}
{"id": "C89", "title": "Calls from a browser over WebUSB", "statement": "With a client in a browser and a device on embassy-usb, packet by packet, a reply is the answer to its own request, handlers run at most once per call and in call order, what a subscription is given was transmitted under its topic in that order, the system comes to rest, and then every call has returned; all this whatever transfers fail, amid whatever message, except that then calls may return that the connection is closed. False: a request whose frame consists of whole packets is not terminated, so that the device waits or takes it and the next request for one, and that next call never returns; and an answer longer than the transfer length chosen for the client ends the connection. Proved for all other lengths, for which the system behaves as with nusb.", "quantifier": "every accepted device configuration, all handlers and tasks, all transfer lengths, all splits into packets, all failures of transfers and interruptions of messages, all interleavings, histories of any length", "why_tests_cant": "WebUSB runs in a browser with a device attached; the repository has no test of it, and whether a frame has one of the lengths that go wrong depends on the payload.", "anchors": ["source/postcard-rpc/src/host_client/webusb.rs: WebUsbWire::send, WebUsbWire::receive", "source/postcard-rpc/src/server/impls/embassy_usb_v0_4.rs: receive, send_all", "source/postcard-rpc/src/host_client/util.rs: in_worker, out_worker"]}
{"id": "C90", "title": "The device behaves as one sequential object", "statement": "What the users of the client see of the device can be explained by handling calls one after the other: there is an order of turns, each of one call, in which each handler runs completely on the context that the previous turn left, and each reply is what the handler returned in that call's turn or what the task spawned in that turn sent. Every call has at most one turn, only calls accepted for sending have one, and the handlers that began on the device are those of the turns, in that order. If the link keeps the order, calls have their turns in the order in which they were accepted; so a call made after another one returned never has its turn before it (linearizability). This holds with handlers that wait amid their run, with tasks of the device interleaved, and over USB and WebUSB packet by packet.", "quantifier": "every accepted device configuration, all contexts and stateful handlers, all tasks, any number of concurrent callers, all losses, reorderings and interruptions of messages, all interleavings, histories of any length", "why_tests_cant": "That there is an order explaining all replies is a statement about all histories of several concurrent callers; a test has a few callers and one interleaving.", "anchors": ["source/postcard-rpc/src/server/mod.rs: Server::run", "source/postcard-rpc/src/server/dispatch_macro.rs: handle (context passed to handlers, spawn_fn)", "source/postcard-rpc/src/host_client/mod.rs: HostClient::send_resp", "source/postcard-rpc/src/host_client/util.rs: out_worker, in_worker"]}
{"id": "C91", "title": "The workbook example, from the methods of its client to the lights", "statement": "A host program that uses the methods of WorkbookClient on the workbook firmware gets from each call that does not return a failure to communicate what that method ought to return: ping its number, get_id the id of the board, set_rgb_single 'done' exactly if the position is below 24 and 'bad position' otherwise, set_all_rgb_single and start_accelerometer 'done', stop_accelerometer a truth value; and if messages arrive whole, a call with a reply does not return such a failure. However many callers use the client at once, there is one order of calls, in agreement with the order in which they were sent and with the order of time, containing every light call that returned, so that once the device is at rest each of the 24 lights has the colour that the last call to set it, in that order, gave it, and black if there is none, and the strip shows these colours. If the program awaits every call before it makes the next, that order is the program's. Over USB and WebUSB, packet by packet.", "quantifier": "all ids, all sequences of calls of the client with all arguments, any number of concurrent callers, all key hashes that stand apart, all splits into packets, all interleavings and interruptions, any readings of the sensor", "why_tests_cant": "The example runs on a board with a strip of lights and has no tests; the claim runs through the client's methods, serialization, framing, packets, dispatch, handlers and back.", "anchors": ["example/workbook-host/src/client.rs: WorkbookClient", "example/workbook-icd/src/lib.rs", "example/firmware/src/bin/comms-02.rs: define_dispatch!, handlers"]}
{"id": "C92", "title": "Cause before effect across the link", "statement": "If the link to the host keeps the order of messages, the histories of the host and of the device fit together: for every moment of the host there is a moment of the device so that all that the host has received by then was transmitted before it, all handlers and tasks begun before it were begun for calls that the host had made, each for a call of its own, and every reply that a call has returned was transmitted before it, after the call's handler or task had begun; and whatever the host receives later was transmitted after those replies. So nothing the device says before it has handled a call can arrive after that call's reply. Over USB if no transfer fails amid a message, and over WebUSB for the lengths of C89. (Not so if the link may reorder messages.)", "quantifier": "every accepted device configuration, all handlers and tasks, all callers, all moments of all histories, all losses, cuts and interruptions of messages, all interleavings", "why_tests_cant": "Whether anything can overtake a reply is a statement about all interleavings of the device's tasks, the transmission and the client; a test sees one at a time and has no common clock.", "anchors": ["source/postcard-rpc/src/server/mod.rs: Server::run, Sender::reply, Sender::publish", "source/postcard-rpc/src/server/impls/embassy_usb_v0_4.rs: EUsbWireTx::send", "source/postcard-rpc/src/host_client/util.rs: in_worker", "source/postcard-rpc/src/host_client/mod.rs: HostClient::send_resp"]}
{"id": "C93", "title": "The workbook's accelerometer as seen by the host", "statement": "A host program uses the workbook's accelerometer through its client. Once a call to stop it, made when every call to start it had returned a reply, has returned 'was running', at most one more sample reaches the host, and none if it has returned 'was not running', until a start is called again. The samples that reach the host are readings of the sensor, in the order of the readings, and are decoded to these if messages arrive whole. No sample reaches the host before a start was called. Over USB and WebUSB, packet by packet. (Not so: that after a stop has returned 'was not running' no samples come, if a start was called but had not returned when the stop was called.)", "quantifier": "all readings of the sensor, all sequences of calls with all arguments, any number of concurrent callers, all key hashes that stand apart, all splits into packets, all interleavings and interruptions", "why_tests_cant": "Samples are published by a task, the stop is answered by the dispatcher, and both travel through transfers and the client's receiving task; whether a sample can overtake or follow the answer is a statement about all their interleavings.", "anchors": ["example/firmware/src/bin/comms-02.rs: accelerometer_handler, accelerometer_stop_handler", "example/workbook-host/src/client.rs: start_accelerometer, stop_accelerometer", "source/postcard-rpc/src/host_client/util.rs: in_worker"]}
{"id": "C94", "title": "A device that keeps pace is never told of a time-out", "statement": "A send of the USB server completes exactly if all of its packets, the empty ones included, are written within the time allowed, which is that of the packets with data; otherwise it is given up, and the next send writes one packet more. So if every packet is taken within a third of the time allowed for one, every send completes, whatever happened before; a half suffices as long as no send was given up; and all of it suffices if, moreover, no message is a multiple of 64 bytes long. False: that it suffices in general that every packet is taken within the time allowed for one (64 bytes take two packets, and the time of one); and that the device recovers from one delay (at 1 ms per packet, and the default of 2 ms, messages of 64 bytes are sent for ever, but after one that was given up all of them are).", "quantifier": "every setting, all messages and sequences of messages, all times that the packets take", "why_tests_cant": "A test has one timing; whether the empty packets are paid for shows only with messages of particular lengths, after interruptions, and hosts of a particular pace.", "anchors": ["source/postcard-rpc/src/server/impls/embassy_usb_v0_4.rs: send_all, set_timeout_ms_per_frame", "source/postcard-rpc/src/server/impls/embassy_usb_v0_3.rs: send_all"]}
{"id": "C95", "title": "A restarted host program finds its footing", "statement": "If a host program that was connected by USB ends amid a frame or amid a message, the program started next is affected at most in one frame in each direction: what is left of the earlier program's frame is glued to the front of the new program's first frame (or both are given up as too long for the device's buffer, if that is a multiple of 64), and the end of the message that the device was sending is the first thing that the new program receives. Everything after that is received in order and unchanged, on both sides. False: that no request is made up that way (a first frame of the right length completes the old request, which the device then handles with the new frame's bytes as part of its content), that no answer is (the end of an old publication may be taken for the answer to the first request), and that the new program's first call returns at all (the device has taken its request for the end of an old one, and nothing more ever happens). If the earlier program ended with nothing under way, and no task on the device still owes it an answer, everything goes on as between a new client and a new device. Otherwise, since every client counts its requests from 0, a call of the new program may return the answer to a call of the old one, whole and correctly numbered.", "quantifier": "all packets left behind, frames, messages and buffers of whole packets, either setting of the maximum packet size", "why_tests_cant": "It depends on the packet at which the earlier program ended, on the lengths of two frames and on what the device still has to do; tests start with a fresh device.", "anchors": ["source/postcard-rpc/src/host_client/raw_nusb.rs: NusbWireTx::send, NusbWireRx::receive, claim_interface", "source/postcard-rpc/src/server/impls/embassy_usb_v0_4.rs: receive, send_all"]}
{"id": "C96", "title": "The workbook's lights show what is written to them", "statement": "The words that the workbook's firmware makes of the colours, shifted out by its PIO program, are pulses that a strip of WS2812 lights understands: each bit takes 1.25 us, and light i takes the 24 bits of colour i, green, red and blue. So every write is shown, if there is a pause after it that is long enough for the nine words that are still under way when it returns, and for the reset: 265 us with 24 lights and a reset of 50 us. False without that pause: the 55 us that the driver waits are over before the last words have left, and a second write that follows at once is taken for colours of lights behind the last one; the lights go on to show the first.", "quantifier": "all colours, numbers of lights, reset times, sequences of writes and pauses between them", "why_tests_cant": "Depends on the hardware's buffering and on how soon the next request comes; a test bench that sets one colour at a time never sees it.", "anchors": ["example/firmware/src/ws2812.rs: Ws2812::new (PIO program, FIFO configuration), write", "example/firmware/src/bin/comms-02.rs: set_led_handler, set_all_led_handler"]}
{"id": "C97", "title": "The workbook's prompt does what is typed", "statement": "At the prompt of the workbook's host program, a line makes a call to the device if and only if it is one of the commands, whatever white space is between and around the words, and then with exactly the numbers that were typed in decimal; numbers that do not fit are refused, not cut. A session makes the calls that its lines stand for, in their order; listening to the accelerometer shows all samples that are received, in order, lasts until the first sample after the time is up, and stops the accelerometer. The program goes on after any other line. It makes one call at a time; so with the workbook's firmware at the other end of the USB cable, every light has the colour that a line gave it last, when the prompt is back and the device at rest. False in general: a colour above 255, or the number of a light that does not exist, ends the program (the latter by way of the device's answer); if it falls behind while listening, it ends and leaves the accelerometer running; and it does not end when its input does, but complains about empty lines without end.", "quantifier": "all lines of Unicode text, sessions, answers, samples and times", "why_tests_cant": "There are infinitely many ways to type a number and to put white space around it; the program is interactive and has no tests.", "anchors": ["example/workbook-host/src/bin/comms-02.rs: main", "example/workbook-host/src/lib.rs: read_line", "example/workbook-host/src/client.rs: WorkbookClient"]}
{"id": "C98", "title": "Tasks that share the sender have each their own time", "statement": "However many tasks send at the same time through clones of one sender, or change the time allowed per frame meanwhile: one send is made at a time; its time starts when its turn begins, however long it has waited, and is the number of its USB packets times the setting in force at that moment, which is the last one made, between 1 and 60000 ms, and 2 ms at first; a setting made later is for the next send. A send is reported as timed out exactly when that time is over. The host sees the messages in the order of their turns, and no mixture of two. No turn lasts longer than its time, so that in whatever order the mutex serves, and whatever the endpoint does, everybody that asked is served once, after boundedly many steps and milliseconds. And if no write takes more than d ms and more than 3d are allowed per packet, nobody is timed out.", "quantifier": "all numbers of tasks, messages, settings, interleavings, delays, errors of the endpoint, and tasks dropped while waiting or sending", "why_tests_cant": "What goes wrong between tasks that contend for a lock depends on the order in which they are polled and on times that a unit test does not control; the repository's tests use a driver that is never waited for.", "anchors": ["source/postcard-rpc/src/server/impls/embassy_usb_v0_4.rs: EUsbWireTx::set_timeout_ms_per_frame, WireTx::send, send_raw, send_log_str, send_log_fmt, send_all"]}
{"id": "C99", "title": "The workbook's first program prints ten pings", "statement": "The workbook's first host program, connected by USB to a device with the workbook's firmware, prints 'Pinging with i... got i!' for i from 0 to 9 in this order and then that it is done; if it ends earlier, it has printed the first of these lines, and says that the client is closed. The answer to a ping is never another number, whatever happens on the cable between messages. When the connection is lost, the program says so and exits.", "quantifier": "all interleavings of the program, the client's tasks, the cable and the device, all interruptions between messages, all key hashes that stand apart, all packet sizes", "why_tests_cant": "The answers cross the client's waiters, two tasks, USB transfers and the device's dispatcher; and when the connection goes, two branches of a select! become ready, of which either may be polled first.", "anchors": ["example/workbook-host/src/bin/comms-01.rs: main, run", "example/workbook-host/src/client.rs: ping, wait_closed", "source/postcard-rpc/src/host_client/mod.rs: send_resp, wait_closed", "book/src/internection-host.md"]}
