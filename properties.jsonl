{"id": "C01", "title": "CRC tracker splits payload from trailing checksum", "statement": "Feeding a byte stream to the CRC tracker releases exactly the bytes of the stream except its last four, in order, and afterwards reports 'correct' exactly when the stream has at least four bytes and the last four are the little-endian CRC-32C of all the bytes before them.", "quantifier": "every byte stream of every length", "why_tests_cant": "streams are unbounded and the tracker's counter saturates, so no finite set of lengths covers it", "anchors": ["canadensis_core/src/crc.rs: CrcTracker, Crc32c"]}
{"id": "C02", "title": "Transfer CRC detects every short error burst", "statement": "If a receiver accepts a multi-frame CAN transfer's bytes (CRC-16 residue zero), then no byte string differing from it only in one byte, or in two adjacent bytes, is also accepted; likewise for CRC-32C and up to four adjacent bytes. Appending the CRC of any data to that data always yields an accepted string.", "quantifier": "every data length, error position and error pattern within the burst", "why_tests_cant": "error patterns times positions times payloads is infinite", "anchors": ["canadensis_core/src/crc.rs: Crc16CcittFalse, Crc32c", "canadensis_can/src/rx/buildup.rs: Buildup::add", "canadensis_can/src/tx/breakdown.rs: Breakdown"]}
{"id": "C03", "title": "COBS escaping is invertible", "statement": "Unescaping the escaped form of a byte string yields that byte string.", "quantifier": "every byte string", "why_tests_cant": "the failing strings contain a run of exactly 254*k non-zero bytes followed by zero; unit tests use short strings", "anchors": ["canadensis_serial/src/cobs.rs: escape_from_iter, Unescaper"]}
{"id": "C04", "title": "COBS output never contains the delimiter and fits the advertised size", "statement": "The escaped form of any byte string contains no zero byte, is never longer than escaped_size of the input length, and escaping into a buffer of at least that many bytes never fails.", "quantifier": "every byte string and every sufficiently large buffer", "why_tests_cant": "size bound must hold for every length and every placement of zeros", "anchors": ["canadensis_serial/src/cobs.rs: escape_from_iter, escaped_size"]}
{"id": "C05", "title": "Serial transmission is all-or-nothing", "statement": "Pushing a transfer either appends one complete delimited frame to the transmit queue or returns an out-of-memory error and leaves the queue exactly as it was; flushing sends the queued bytes in order and a driver error loses no byte.", "quantifier": "every transfer, queue content, queue capacity and driver behaviour", "why_tests_cant": "interaction of unbounded histories of pushes and flushes with arbitrary driver failures", "anchors": ["canadensis_serial/src/tx.rs: SerialTransmitter::push, flush"]}
{"id": "C06", "title": "Serial end-to-end delivery", "statement": "A transfer pushed into a serial transmitter and carried byte by byte to a receiver that is between frames, subscribed to its port and not already past its transfer ID is delivered exactly once with the same header fields and the payload truncated to the subscription's maximum.", "quantifier": "every transfer whose encoded frame survives COBS, every subscription set", "why_tests_cant": "all payload contents and lengths", "anchors": ["canadensis_serial/src/tx.rs", "canadensis_serial/src/rx.rs: SerialReceiver::handle_byte", "canadensis_header/src/lib.rs"]}
{"id": "C07", "title": "Serial receiver resynchronises on the next delimiter", "statement": "After arbitrary garbage ending in a frame delimiter, the next complete delimited frame is received.", "quantifier": "every garbage byte string", "why_tests_cant": "garbage is unbounded and must be tried against every receiver state", "anchors": ["canadensis_serial/src/rx.rs: SerialReceiver::handle_byte"]}
{"id": "C08", "title": "Serial receiver is total", "statement": "No byte sequence makes the serial receiver panic (in particular the fixed-size header buffer never overflows).", "quantifier": "every byte sequence from every reachable state", "why_tests_cant": "all histories", "anchors": ["canadensis_serial/src/rx.rs: handle_byte", "canadensis_serial/src/header_collector.rs: HeaderCollector"]}
{"id": "C09", "title": "Serial receiver delivers only what was asked for", "statement": "Every transfer the serial receiver delivers matches an active subscription, a service transfer is addressed to this node, and its payload is at most the subscribed maximum size.", "quantifier": "every history of subscriptions, unsubscriptions and received bytes", "why_tests_cant": "unbounded histories", "anchors": ["canadensis_serial/src/rx.rs: complete_transfer, is_interested, find_subscription_mut", "canadensis_core/src/transport.rs: Receiver"]}
{"id": "C10", "title": "Serial receiver delivers a transfer ID at most once per session lifetime", "statement": "Between two consecutive deliveries on the same port from the same source node, either the transfer ID has increased, or the session was discarded: it expired, the subscription was replaced or removed, or there was no memory to create it.", "quantifier": "every history of bytes and times", "why_tests_cant": "unbounded histories", "anchors": ["canadensis_serial/src/rx.rs: is_interested, complete_transfer, clean_expired_sessions"]}
{"id": "C11", "title": "Cyphal header encoding is invertible", "statement": "Encoding any valid header to its 24-byte wire form and decoding it yields the same header; the encoded form has version 1 and a valid checksum.", "quantifier": "every header with fields in range", "why_tests_cant": "the field space (64-bit transfer ID etc.) is astronomically large", "anchors": ["canadensis_header/src/lib.rs: From<Header> for RawHeader, TryFrom<RawHeader> for Header"]}
{"id": "C12", "title": "Header decoding rejects malformed headers", "statement": "A 24-byte string decodes only if its version is 1, its checksum is valid, its priority is 0..7, its subject/service ID is in range and service headers name both nodes; a decoded header re-encodes to the same bytes except for the ignored destination field of messages.", "quantifier": "every 24-byte string", "why_tests_cant": "2^192 inputs", "anchors": ["canadensis_header/src/lib.rs: TryFrom<RawHeader> for Header"]}
{"id": "C13", "title": "CAN identifier encoding is invertible", "statement": "Parsing the CAN ID that the transmitter builds for a message, anonymous message, request or response yields the same priority, kind, port and node IDs, and distinct non-anonymous headers get distinct CAN IDs.", "quantifier": "every priority, subject, service, source and destination in range", "why_tests_cant": "about 2^29 combinations and pairs of them", "anchors": ["canadensis_can/src/tx.rs: make_can_id, encode_common_service_fields", "canadensis_can/src/rx.rs: parse_can_id"]}
{"id": "C14", "title": "CAN identifier parsing accepts exactly the well-formed identifiers", "statement": "Every 29-bit identifier either parses to in-range fields or is rejected; it is rejected exactly when a reserved bit that must be zero is set; nothing panics.", "quantifier": "every 29-bit identifier", "why_tests_cant": "2^29 identifiers", "anchors": ["canadensis_can/src/rx.rs: parse_can_id"]}
{"id": "C15", "title": "CAN segmentation produces well-formed frames", "statement": "Every frame produced for a transfer is at most the MTU long, has a valid CAN / CAN FD length, carries the transfer ID in its tail byte; start is set only on the first frame, end only on the last, and the toggle alternates starting from one.", "quantifier": "every payload length and both MTUs", "why_tests_cant": "payload length is unbounded", "anchors": ["canadensis_can/src/tx.rs: push_inner", "canadensis_can/src/tx/breakdown.rs: Breakdown", "canadensis_can/src/lib.rs: calculate_frame_stats"]}
{"id": "C16", "title": "CAN frame count prediction is exact", "statement": "The number of frames reserved in the queue before a transfer is pushed equals the number of frames actually produced for it.", "quantifier": "every payload length and both MTUs", "why_tests_cant": "unbounded lengths; the arithmetic has case splits at every MTU boundary", "anchors": ["canadensis_can/src/lib.rs: calculate_frame_stats", "canadensis_can/src/tx.rs: push_inner"]}
{"id": "C17", "title": "CAN transmission is all-or-nothing", "statement": "If the queue lacks room for the whole transfer, push returns an error and no frame of the transfer is queued; otherwise all frames are queued.", "quantifier": "every transfer, queue content and capacity", "why_tests_cant": "unbounded histories", "anchors": ["canadensis_can/src/tx.rs: push_inner", "canadensis_can/src/queue/array_queue.rs: try_reserve"]}
{"id": "C18", "title": "CAN end-to-end delivery", "statement": "The frames produced for a non-anonymous transfer, received in order by a subscribed receiver whose session is not mid-transfer with the same transfer ID and that does not consider it a duplicate, are delivered as exactly one transfer with the same header whose payload is the sent payload followed by zero padding, truncated to the subscription's maximum size.", "quantifier": "every payload, MTU, header, subscription size and prior session state", "why_tests_cant": "unbounded payload lengths and states", "anchors": ["canadensis_can/src/tx.rs", "canadensis_can/src/rx.rs", "canadensis_can/src/rx/subscription.rs", "canadensis_can/src/rx/buildup.rs"]}
{"id": "C19", "title": "CAN reassembly of different sources does not interfere", "statement": "What a receiver delivers from one source node on one port depends only on the frames from that source on that port, not on how they are interleaved with frames of other sources or ports.", "quantifier": "every interleaving of every set of frame streams", "why_tests_cant": "number of interleavings grows factorially", "anchors": ["canadensis_can/src/rx.rs: accept_sane_frame", "canadensis_can/src/rx/subscription.rs: accept_frame"]}
{"id": "C20", "title": "CAN receiver suppresses duplicates", "statement": "After a transfer is delivered from a source on a port, re-receiving all of that transfer's frames (as a redundant or retransmitting bus may do) before the transfer-ID timeout delivers nothing.", "quantifier": "every transfer, every timing below the timeout", "why_tests_cant": "all times, IDs and payload lengths", "anchors": ["canadensis_can/src/rx/subscription.rs: checked_accept_non_anonymous, has_transfer_id_timed_out"]}
{"id": "C21", "title": "CAN receiver delivers only what was asked for", "statement": "Every transfer the CAN receiver delivers matches an active subscription; a service transfer that is not loopback is addressed to this node.", "quantifier": "every history of subscription changes and frames", "why_tests_cant": "unbounded histories", "anchors": ["canadensis_can/src/rx.rs: accept_frame, accept_sane_frame", "canadensis_core/src/transport.rs: Receiver"]}
{"id": "C22", "title": "CAN receiver respects the subscribed payload size", "statement": "The payload of every delivered transfer is at most the subscription's payload_size_max.", "quantifier": "every history of frames", "why_tests_cant": "unbounded histories; anonymous frames take a separate path", "anchors": ["canadensis_can/src/rx/subscription.rs: accept_anonymous, accept_non_anonymous", "canadensis_can/src/rx/buildup.rs"]}
{"id": "C23", "title": "CAN receiver never panics", "statement": "No sequence of received frames makes the receiver panic or its reassembly arithmetic overflow.", "quantifier": "every sequence of frames from every reachable state", "why_tests_cant": "all histories", "anchors": ["canadensis_can/src/rx/buildup.rs: Buildup::add", "canadensis_can/src/rx/subscription.rs"]}
{"id": "C24", "title": "CAN multi-frame transfers are delivered only intact", "statement": "A multi-frame transfer is delivered only if its frames were received start to end in order with alternating toggles, same transfer ID and same loopback flag, and the CRC over all their bytes matches; the payload delivered is exactly their concatenation without CRC, truncated to the maximum.", "quantifier": "every history of frames, including lost, duplicated and reordered ones", "why_tests_cant": "loss/reorder patterns are unbounded", "anchors": ["canadensis_can/src/rx/subscription.rs: accept_with_session", "canadensis_can/src/rx/session.rs", "canadensis_can/src/rx/buildup.rs"]}
{"id": "C25", "title": "CAN transmit queue is a stable priority queue", "statement": "Frames leave the queue in CAN-ID priority order, and frames with the same priority leave in the order they were pushed; the queue never holds more than its capacity and push fails only when it is full; returning a popped frame puts it back in front of its equals.", "quantifier": "every sequence of push, pop, return and capacity", "why_tests_cant": "operation histories are unbounded", "anchors": ["canadensis_can/src/queue/array_queue.rs: ArrayQueue"]}
{"id": "C26", "title": "CAN queue flush loses no live frame", "statement": "Flushing a queue to a driver transmits frames in queue order, discards only frames whose deadline has passed, and leaves every frame the driver did not accept in the queue.", "quantifier": "every queue content, clock and driver behaviour", "why_tests_cant": "driver behaviours (block, error, displace) form unbounded sequences", "anchors": ["canadensis_can/src/queue/mod.rs: flush_single_queue, frame_is_expired"]}
{"id": "C27", "title": "Redundant-interface deduplication passes each frame once", "statement": "With redundant interfaces, frames are taken from one interface until it has been silent for longer than the timeout; a frame stream mirrored on several interfaces is passed on exactly once while the current interface is live.", "quantifier": "every interleaving of interfaces and times", "why_tests_cant": "unbounded histories", "anchors": ["canadensis_can/src/redundant/deduplicator.rs: Deduplicator"]}
{"id": "C28", "title": "CAN acceptance filters match exactly the subscribed identifiers", "statement": "The acceptance filter generated for a subject, request or response accepts exactly the identifiers that parse to that subject, or to that service kind addressed to this node.", "quantifier": "every 29-bit identifier and every subject/service/node", "why_tests_cant": "2^29 identifiers times 2^13 subjects", "anchors": ["canadensis_can/src/driver.rs: subject_filter, request_filter, response_filter", "canadensis_can/src/rx.rs: parse_can_id"]}
{"id": "C29", "title": "Filter optimisation never loses a wanted frame", "statement": "Reducing a list of acceptance filters to at most N filters yields at most N filters which accept every identifier accepted by any original filter, and leaves the list unchanged when it already fits.", "quantifier": "every list of filters made by Filter::new, every N >= 1", "why_tests_cant": "lists and masks are unbounded combinations", "anchors": ["canadensis_filter_config/src/lib.rs: optimize, merge_filters, merge, compact", "canadensis_can/src/driver.rs: optimize_filters"]}
{"id": "C30", "title": "UDP segmentation produces well-formed datagrams", "statement": "The datagrams of a transfer carry consecutive frame indices from zero, only the last is marked last, none exceeds the MTU, and their payloads concatenate to the transfer payload followed by its little-endian CRC-32C.", "quantifier": "every payload length and MTU above the minimum", "why_tests_cant": "unbounded lengths and MTUs", "anchors": ["canadensis_udp/src/tx/breakdown.rs: Breakdown", "canadensis_udp/src/tx.rs: push"]}
{"id": "C31", "title": "UDP end-to-end delivery", "statement": "The datagrams of a transfer received in order by a subscribed receiver with no open session for its source are delivered as exactly one transfer with the same header and the payload truncated to the subscribed maximum.", "quantifier": "every payload and MTU", "why_tests_cant": "fails only for payload lengths in three residue classes of the MTU", "anchors": ["canadensis_udp/src/tx", "canadensis_udp/src/rx.rs: accept_inner, handle_frame, ActiveSession::handle_frame"]}
{"id": "C32", "title": "UDP reassembly delivers only intact transfers", "statement": "A transfer is delivered only if its bytes came from consecutive datagrams of one source, port, priority and transfer ID ending in the last-frame flag, and the trailing CRC-32C is right for the bytes before it.", "quantifier": "every history of datagrams", "why_tests_cant": "loss/reorder histories are unbounded", "anchors": ["canadensis_udp/src/rx.rs: ActiveSession::handle_frame", "canadensis_udp/src/rx/buildup.rs: Buildup"]}
{"id": "C33", "title": "UDP receiver suppresses duplicates", "statement": "Once a transfer with some transfer ID was delivered from a source on a port, no transfer with the same or lower ID is delivered from it before the timeout.", "quantifier": "every history of datagrams", "why_tests_cant": "requires particular interleavings of single- and multi-frame transfers", "anchors": ["canadensis_udp/src/rx.rs: handle_frame_non_anonymous"]}
{"id": "C34", "title": "UDP receiver recovers from a lost datagram", "statement": "After a datagram is lost, the next complete transfer from the same source on the same port is delivered.", "quantifier": "every loss position", "why_tests_cant": "loss positions times lengths are unbounded", "anchors": ["canadensis_udp/src/rx.rs: handle_frame_non_anonymous", "canadensis_udp/src/rx/buildup.rs: Buildup::push"]}
{"id": "C35", "title": "UDP receiver delivers only what was asked for", "statement": "Every transfer the UDP receiver delivers matches an active subscription, and service transfers are addressed to this node.", "quantifier": "every history of datagrams", "why_tests_cant": "unbounded histories", "anchors": ["canadensis_udp/src/rx.rs: accept_inner", "canadensis_core/src/transport.rs: Receiver"]}
{"id": "C36", "title": "UDP multicast addressing is injective", "statement": "Different subjects and different destination nodes map to different multicast addresses, all inside 239.0.0.0/15, and decoding an address yields the subject or node it was made from.", "quantifier": "every subject ID and node ID", "why_tests_cant": "2^13 + 2^16 values and all pairs", "anchors": ["canadensis_udp/src/address.rs: Address"]}
{"id": "C37", "title": "UDP receiver never panics", "statement": "No datagram history with any arrival times makes the receiver panic.", "quantifier": "every datagram history and time", "why_tests_cant": "panic depends on a silence longer than half the clock range", "anchors": ["canadensis_udp/src/rx.rs: handle_frame_non_anonymous"]}
{"id": "C38", "title": "Bit-level integer encoding round-trips at any offset", "statement": "Writing a sequence of integers of arbitrary widths with a write cursor and reading them back with the same widths yields the values truncated to their widths; earlier bits are never disturbed; the produced bytes are the little-endian bit packing.", "quantifier": "every sequence of widths 1..64 and values", "why_tests_cant": "offsets times widths times histories", "anchors": ["canadensis_encoding/src/cursor/serialize.rs: WriteCursor", "canadensis_encoding/src/cursor/deserialize.rs: ReadCursor"]}
{"id": "C39", "title": "Reading past the end yields zeros", "statement": "Reading any sequence of fields from any byte slice behaves as if the slice were followed by infinitely many zero bits (implicit zero extension), never fails and never panics.", "quantifier": "every byte slice and read sequence", "why_tests_cant": "unbounded", "anchors": ["canadensis_encoding/src/cursor/deserialize.rs: ReadCursor"]}
{"id": "C40", "title": "Delimited composites isolate versions", "statement": "Reading a delimited composite consumes exactly the length in its delimiter header whatever the inner type reads, so a following field is read correctly even if reader and writer use different versions of the inner type; an error is reported exactly when the declared length exceeds the remaining data.", "quantifier": "every inner payload, every inner reader", "why_tests_cant": "all pairs of versions", "anchors": ["canadensis_encoding/src/cursor/serialize.rs: write_composite", "canadensis_encoding/src/cursor/deserialize.rs: read_composite"]}
{"id": "C41", "title": "Bit arrays round-trip", "statement": "Serializing a bit array and deserializing it with the same length yields the same bits and leaves the cursor right behind them.", "quantifier": "every capacity, length, content and cursor offset", "why_tests_cant": "fails only for partially filled arrays whose length is a multiple of eight at aligned offsets", "anchors": ["canadensis_encoding/src/bits.rs: BitArray"]}
{"id": "C42", "title": "Bit length set bounds are exact", "statement": "min_value and max_value of a bit length set equal the least and greatest element of the set it denotes; is_fixed_size holds exactly for singletons.", "quantifier": "every expression built from the public constructors with positive alignments, all of whose parts denote lengths below 2^64 (the type of lengths)", "why_tests_cant": "expressions are unbounded trees", "anchors": ["canadensis_bit_length_set/src/operator.rs: min, max", "canadensis_bit_length_set/src/lib.rs"]}
{"id": "C43", "title": "Bit length set remainder and alignment are exact", "statement": "The remainder of a bit length set modulo n denotes exactly the remainders of its elements, and is_aligned(n) holds exactly when every element is a multiple of n.", "quantifier": "every expression and every n", "why_tests_cant": "expressions are unbounded trees and the implementation takes shortcuts on repetition counts", "anchors": ["canadensis_bit_length_set/src/operator.rs: modulo", "canadensis_bit_length_set/src/lib.rs: is_aligned, Rem"]}
{"id": "C44", "title": "Bit length set equality and padding", "statement": "Two bit length sets compare equal exactly when they denote the same set, and after padding to an alignment every element is a multiple of it, at least the original and less than one alignment larger.", "quantifier": "every pair of expressions whose parts denote lengths below 2^64", "why_tests_cant": "unbounded trees; a structural shortcut precedes expansion", "anchors": ["canadensis_bit_length_set/src/operator.rs: structural_equal, expand", "canadensis_bit_length_set/src/lib.rs: PartialEq, pad_to_alignment"]}
{"id": "C45", "title": "Published transfer IDs are sequential", "statement": "The k-th message of a subject given to the transmitter since start_publishing has transfer ID k (counted from 0, modulo the transport's range), whatever else the node does in between and whether or not earlier pushes failed.", "quantifier": "every history of node operations", "why_tests_cant": "unbounded histories and wrap-around", "anchors": ["canadensis/src/publisher.rs: Publisher::publish", "canadensis/src/node/core.rs: CoreNode::publish"]}
{"id": "C46", "title": "Request transfer IDs are sequential per destination", "statement": "Requests to each destination node use consecutive transfer IDs independently of requests to other destinations, and the ID returned to the caller is the one sent; only a lack of memory (for the payload, or for a new destination in a tracker of fixed capacity) prevents a request.", "quantifier": "every history of requests", "why_tests_cant": "unbounded histories", "anchors": ["canadensis/src/requester.rs: Requester, TransferIdFixedMap", "canadensis_can/src/lib.rs: CanTransferIdTracker"]}
{"id": "C47", "title": "Responses answer their request", "statement": "A response sent with a response token carries the service, transfer ID and priority of the request and is addressed to the node that sent the request, and its source is this node.", "quantifier": "every request and node state", "why_tests_cant": "all header values", "anchors": ["canadensis/src/node/core.rs: handle_incoming_transfer, send_response_payload"]}
{"id": "C48", "title": "Handler chains deliver each transfer to the first willing handler", "statement": "In a chain of handlers each incoming transfer is offered to the handlers in order until one reports it handled; later handlers never see it; the chain reports handled iff one did.", "quantifier": "every chain shape and every incoming transfer", "why_tests_cant": "chains are unbounded trees", "anchors": ["canadensis/src/lib.rs: TransferHandler::chain, TransferHandlerChain"]}
{"id": "C49", "title": "Publishing and requesting slots are managed consistently", "statement": "start_publishing fails with Duplicate exactly when the subject is active and with Memory exactly when the table is full; publish succeeds in finding a publisher exactly for active subjects; a failing start_sending_requests leaves the node as it was.", "quantifier": "every history of start/stop/publish operations", "why_tests_cant": "unbounded histories", "anchors": ["canadensis/src/node/core.rs: start_publishing, stop_publishing, publish, start_sending_requests"]}
{"id": "C50", "title": "The basic node's port list reflects its ports", "statement": "The publisher, subscriber, client and server lists sent by a basic node contain exactly the ports that are in use (up to the fixed capacity of the list).", "quantifier": "every history of start/stop/subscribe/unsubscribe", "why_tests_cant": "unbounded histories", "anchors": ["canadensis/src/node/basic.rs: BasicNode, insert_into_list, remove_from_list"]}
{"id": "C51", "title": "Register access is safe", "statement": "A remote access request never changes an immutable register, a rejected write leaves the register unchanged, an accepted write is returned by the response, and access to unknown registers returns an empty value.", "quantifier": "every register block and request history", "why_tests_cant": "unbounded histories and value types", "anchors": ["canadensis/src/register.rs: RegisterHandler, register_handle_access", "canadensis/src/register/basic.rs"]}
{"id": "C52", "title": "Plug-and-play server hands out distinct node IDs", "statement": "The plug-and-play server never gives the same node ID to two nodes with different unique IDs and always repeats the same answer to the same node.", "quantifier": "every history of allocation requests and heartbeats", "why_tests_cant": "unbounded histories", "anchors": ["canadensis/src/service/pnp/server.rs: PnpServerService, handle_allocation_message"]}
{"id": "C53", "title": "Subscribing replaces, unsubscribing removes", "statement": "After any sequence of subscribe and unsubscribe calls there is at most one subscription per port and it is the one from the latest successful subscribe not followed by an unsubscribe.", "quantifier": "every history of subscribe/unsubscribe calls", "why_tests_cant": "unbounded histories", "anchors": ["canadensis_core/src/subscription.rs: DynamicSubscriptionManager", "canadensis_can/src/rx.rs: subscribe, unsubscribe"]}
{"id": "C54", "title": "Session tables behave as finite maps", "statement": "The fixed-size and dynamic session tables behave like a finite map from node ID to session: lookups return the last value inserted, removal removes, and an insert fails only when a bounded table is full.", "quantifier": "every operation history", "why_tests_cant": "unbounded histories", "anchors": ["canadensis_core/src/session.rs: SessionLinearMap, SessionArray, SessionDynamicMap"]}
{"id": "C55", "title": "UDP push respects deadline and order", "statement": "Pushing a transfer to the UDP transmitter hands the socket the datagrams of the transfer in order and at most once each, skips those whose deadline has passed, stops at the first one the socket refuses, and succeeds exactly if none was refused; all go to the multicast address of the subject or destination node.", "quantifier": "every transfer, MTU, clock and socket behaviour", "why_tests_cant": "the clock and the socket may behave differently at every datagram", "anchors": ["canadensis_udp/src/tx.rs: UdpTransmitter::push, push_inner, send_frames"]}
{"id": "C56", "title": "UDP sources and ports do not interfere", "statement": "What a UDP receiver reports for the datagrams of one source on one port does not depend on datagrams from other sources or on other ports.", "quantifier": "every history of datagrams, subscriptions and node ID changes", "why_tests_cant": "needs all interleavings of the datagrams of any number of sources", "anchors": ["canadensis_udp/src/rx.rs: UdpReceiver::accept_inner, Subscription::handle_frame_non_anonymous"]}
{"id": "C57", "title": "UDP group membership follows the subscriptions", "statement": "The socket is a member of the multicast group of a subject exactly while that subject is subscribed to, and of the group of this node exactly while some service is subscribed to.", "quantifier": "every history of subscribe, unsubscribe and set_id calls, with any answers of the socket", "why_tests_cant": "the number and order of subscriptions is unbounded", "anchors": ["canadensis_udp/src/rx.rs: subscribe_message, subscribe_request, service_subscribe_check_multicast, service_unsubscribe_check_multicast, set_id"]}
{"id": "C58", "title": "UDP receive returns the first result", "statement": "A receive call on the UDP receiver handles datagrams in order until one completes a transfer or fails, or the socket has no more; it reports exactly this and consumes no further datagram.", "quantifier": "every sequence of answers of the socket", "why_tests_cant": "the loop runs over an unbounded number of ignored datagrams", "anchors": ["canadensis_udp/src/rx.rs: UdpReceiver::receive"]}
{"id": "C59", "title": "Aligned operations refuse unaligned cursors", "statement": "The aligned read and write operations, fork and zero-copy reading panic when the cursor is not at a byte boundary, as documented, and never overwrite bits written before.", "quantifier": "every cursor state and argument", "why_tests_cant": "all offsets and histories", "anchors": ["canadensis_encoding/src/cursor/serialize.rs: write_aligned_u8, write_aligned_bytes", "canadensis_encoding/src/cursor/deserialize.rs: read_aligned_u8, fork", "canadensis_encoding/src/lib.rs: deserialize_zero_copy"]}
{"id": "C60", "title": "Bit arrays behave as sequences of booleans", "statement": "Setting a bit changes exactly that bit; indices at or beyond the length panic; two bit arrays are equal exactly when they have the same bits, whatever their capacities; their order is a strict total order: by length, then by the first differing bit.", "quantifier": "every pair of bit arrays of any capacity, length and unused bits", "why_tests_cant": "unbounded lengths and contents", "anchors": ["canadensis_encoding/src/bits.rs: BitArray::get, set, fill, PartialEq, compare"]}
{"id": "C61", "title": "Bit length sets are totally ordered", "statement": "Comparison of bit length sets is a total order that agrees with equality: it compares the increasing sequences of elements lexicographically.", "quantifier": "every pair and triple of expressions whose parts denote lengths below 2^64", "why_tests_cant": "expressions are unbounded trees", "anchors": ["canadensis_bit_length_set/src/lib.rs: Ord, PartialEq", "canadensis_bit_length_set/src/operator.rs: expand"]}
{"id": "C62", "title": "Bit length set self-check never fails", "statement": "validate_numerically, which compares the calculated bounds and remainders with the expanded set, never panics.", "quantifier": "every expression whose parts denote lengths below 2^64", "why_tests_cant": "expressions are unbounded trees", "anchors": ["canadensis_bit_length_set/src/operator.rs: validate_numerically, modulo"]}
{"id": "C63", "title": "Receiving handles every waiting transfer", "statement": "One call of receive passes every transfer that the receiver has to the handler, in order and once each, until there are none left or the driver reports an error.", "quantifier": "every sequence of receiver answers and every handler", "why_tests_cant": "unbounded sequences and arbitrary handlers", "anchors": ["canadensis/src/node/core.rs: CoreNode::receive, handle_incoming_transfer"]}
{"id": "C64", "title": "Response subscriptions follow the requesters", "statement": "The receiver is subscribed to the responses of a service exactly while the node can send requests for it.", "quantifier": "every history of node operations", "why_tests_cant": "unbounded histories", "anchors": ["canadensis/src/node/core.rs: start_sending_requests, stop_sending_requests"]}
{"id": "C65", "title": "Anonymous publishing", "statement": "An anonymous publisher refuses exactly the payloads longer than one frame, sends everything else without a source node ID, and uses consecutive transfer IDs.", "quantifier": "every sequence of sends", "why_tests_cant": "unbounded sequences and wrap-around", "anchors": ["canadensis/src/anonymous.rs: AnonymousPublisher::send"]}
{"id": "C66", "title": "Generated serializers write the Cyphal encoding", "statement": "For every DSDL type the frontend accepts and every value of the type, the generated serialize leaves in the buffer exactly the encoding of the value as the Cyphal specification defines it: little-endian bit packing, length prefixes, union tags, delimiter headers, composites at byte boundaries, zeros behind.", "quantifier": "every DSDL type (structs, unions, arrays, nested, sealed or delimited), every value", "why_tests_cant": "the types and values are unbounded trees", "anchors": ["canadensis_codegen_rust/src/impl_serialize.rs: ImplementSerialize, SerializeField, WriteAlignedField, WriteUnalignedField", "canadensis_dsdl_frontend/src/compile.rs"]}
{"id": "C67", "title": "size_bits is the size of the encoding", "statement": "For every DSDL type and value, size_bits rounded up to bytes is the length of the encoding, so serializing into a buffer of that size never panics.", "quantifier": "every DSDL type and value", "why_tests_cant": "the types and values are unbounded trees", "anchors": ["canadensis_codegen_rust/src/size_bits.rs: ImplementSizeBits", "canadensis_codegen_rust/src/impl_serialize.rs"]}
{"id": "C68", "title": "Generated code round-trips", "statement": "Deserializing what serialize wrote returns the same value, also when more bytes follow.", "quantifier": "every DSDL type and value, every trailing bytes", "why_tests_cant": "the types and values are unbounded trees", "anchors": ["canadensis_codegen_rust/src/impl_serialize.rs", "canadensis_codegen_rust/src/impl_deserialize.rs"]}
{"id": "C69", "title": "Generated deserializers are total", "statement": "Deserializing any bytes never panics, and a returned value is a value of the type, with all arrays within their bounds.", "quantifier": "every DSDL type, every byte string", "why_tests_cant": "unbounded byte strings and types", "anchors": ["canadensis_codegen_rust/src/impl_deserialize.rs: ImplementDeserialize, ReadUnalignedField"]}
{"id": "C70", "title": "Bad lengths and tags are rejected", "statement": "A received array length above the capacity is answered with the array length error, and a received union tag with no variant with the union tag error.", "quantifier": "every DSDL type, every byte string", "why_tests_cant": "unbounded byte strings and types", "anchors": ["canadensis_codegen_rust/src/impl_deserialize.rs: ReadUnalignedField, deserialize_enum"]}
{"id": "C71", "title": "Calculated bit length sets contain every encoding", "statement": "The length in bits of the encoding of every value is in the bit length set that the frontend calculates for the type.", "quantifier": "every DSDL type and value", "why_tests_cant": "the types and values are unbounded trees", "anchors": ["canadensis_dsdl_frontend/src/compile.rs: add_field, add_padding_field, make_union_bit_length, finish", "canadensis_dsdl_frontend/src/types.rs"]}
{"id": "C72", "title": "Generated deserializers extend with zeros", "statement": "Bytes missing at the end of a received payload are read as zeros: appending zero bytes never changes the result.", "quantifier": "every DSDL type, every byte string, every number of zeros", "why_tests_cant": "unbounded byte strings and types", "anchors": ["canadensis_codegen_rust/src/impl_deserialize.rs", "canadensis_encoding/src/read.rs"]}
{"id": "C73", "title": "Heartbeats tell uptime, mode, health and status", "statement": "Each call of run_per_second_tasks publishes one heartbeat whose uptime is the number of calls so far (stopping at the largest 32-bit value) and whose mode, health and status code are those set last; publishing is never stopped unless the application stops it.", "quantifier": "every history of a basic node, every transmitter", "why_tests_cant": "unbounded histories, saturation after 2^32 calls", "anchors": ["canadensis/src/node/minimal.rs: send_heartbeat", "canadensis/src/node/basic.rs: run_per_second_tasks"]}
{"id": "C74", "title": "Port lists are published every 10 seconds", "statement": "A basic node whose run_per_second_tasks is called every second publishes a port list every 10 calls.", "quantifier": "every history of a basic node, every transmitter", "why_tests_cant": "unbounded histories and every behaviour of the transmitter", "anchors": ["canadensis/src/node/basic.rs: run_per_second_tasks, publish_port_list"]}
{"id": "C75", "title": "Node information requests are answered", "statement": "receive of a basic node answers every GetInfo request with the node information given at creation, to the requester, with the transfer ID and priority of the request, and gives every other transfer unchanged to the application.", "quantifier": "every node information value, every sequence of received transfers, every application handler", "why_tests_cant": "unbounded sequences and arbitrary handlers", "anchors": ["canadensis/src/node/basic.rs: receive, NodeInfoHandler", "canadensis/src/service/get_info.rs"]}
{"id": "C76", "title": "The port list service reports the ports of its node", "statement": "The port list service publishes a list with exactly the subjects and services that the node publishes, subscribes to, calls and serves, and never panics.", "quantifier": "every history of the node, every set of subscriptions", "why_tests_cant": "unbounded histories and sets", "anchors": ["canadensis/src/service/port_list.rs: publish_port_list"]}
{"id": "C77", "title": "Setting the node ID tells the receiver", "statement": "set_node_id gives the ID to the receiver, keeps all publishers and clients, and no other operation changes the ID of the receiver; transfers sent afterwards have the new source.", "quantifier": "every state and operation of a node", "why_tests_cant": "every state", "anchors": ["canadensis/src/node/core.rs: set_node_id"]}
{"id": "C78", "title": "Register requests never crash the node", "statement": "Whatever bytes another node sends to the register access and register list services, the node with registers does not panic.", "quantifier": "every payload, every block of registers", "why_tests_cant": "all payloads of all lengths", "anchors": ["canadensis/src/register.rs: RegisterHandler", "canadensis/src/service/register_server.rs", "canadensis_data_types/src/generated.rs: uavcan::register::value_1_0"]}
{"id": "C79", "title": "Registers can be listed", "statement": "The response to a register list request for index i has the name of the i-th register, and an empty name after the last one; nothing changes.", "quantifier": "every block of registers, every index and payload", "why_tests_cant": "any number of registers and names", "anchors": ["canadensis/src/register.rs: handle_list_request", "canadensis/src/register/basic.rs: FixedStringRegister"]}
{"id": "C80", "title": "A register accepts the value it reports", "statement": "Writing to a mutable register without a validator the value that it reports succeeds, and the register keeps that value: saved registers can be restored.", "quantifier": "every type and value of a register", "why_tests_cant": "all types, lengths and values", "anchors": ["canadensis/src/register/basic.rs: RegisterType"]}
{"id": "C81", "title": "The plug-and-play server survives every message", "statement": "No message and no assignment by the application makes the plug-and-play server panic.", "quantifier": "every history of a server, every message with any bytes, every node ID", "why_tests_cant": "all histories and inputs", "anchors": ["canadensis/src/service/pnp/server.rs: PnpServerService::assign, handle_message, assignments"]}
{"id": "C82", "title": "A plug-and-play client takes only a node ID meant for it", "statement": "A node with a plug-and-play client takes a node ID exactly from a message that answers a request with its unique ID, then has this ID and no longer uses the allocation subject; any other message changes nothing. Its own request is not an answer.", "quantifier": "every history of a node, every message with any bytes", "why_tests_cant": "all inputs and histories", "anchors": ["canadensis/src/service/pnp/client.rs: PnpClientService::handle_message", "canadensis/src/service/pnp/mod.rs: AllocationMessage"]}
{"id": "C83", "title": "Plug-and-play allocation works end to end", "statement": "When the server receives the request of a client and picks a node ID, the client that receives the answer takes this ID, whatever padding the transports add.", "quantifier": "every unique ID, version, server history and padding", "why_tests_cant": "all combinations of client and server states", "anchors": ["canadensis/src/service/pnp/client.rs: send_request, handle_message", "canadensis/src/service/pnp/server.rs: handle_allocation_message"]}
{"id": "C84", "title": "Plug-and-play services can be created and leave nothing behind", "statement": "A plug-and-play client or server can be created on every transport that its messages fit into, if the node has room; then it is subscribed to and publishes on its subjects. If it cannot be created nothing changes.", "quantifier": "every node, MTU and answer of the receiver", "why_tests_cant": "all states of the node", "anchors": ["canadensis/src/service/pnp/client.rs: PnpClientService::new", "canadensis/src/service/pnp/server.rs: PnpServerService::new"]}
{"id": "C85", "title": "The stand-alone plug-and-play client sends valid requests", "statement": "PnpClient sends one anonymous single-frame request with the hash of its unique ID for each call, does not panic, and finds a node ID exactly in a message that carries this hash and a node ID of the transport.", "quantifier": "every unique ID, MTU, answer of the transmitter and received payload", "why_tests_cant": "all inputs", "anchors": ["canadensis_pnp_client/src/lib.rs: PnpClient::send_request, receive"]}
{"id": "C86", "title": "Checksums are the standard's CRCs", "statement": "The transfer and header checksums and the hash of a unique ID are the remainders of polynomial division that CRC-16/CCITT-FALSE, CRC-32C and CRC-64/WE are defined by, so that other implementations compute the same.", "quantifier": "every byte string", "why_tests_cant": "all contents and lengths", "anchors": ["canadensis_core/src/crc.rs: Crc32c, Crc16CcittFalse", "canadensis/src/service/pnp/mod.rs: crc_64we_48_bits"]}
{"id": "C87", "title": "Number literals in DSDL denote the number written", "statement": "An integer literal of any base, and a real literal with or without an exponent, has exactly the value that its digits denote; underscores between digits do not matter.", "quantifier": "every literal of the grammar", "why_tests_cant": "all digit strings; wrong scales show only for some positions of underscores", "anchors": ["canadensis_dsdl_parser/src/ast.rs: parse_integer_literal, parse_digits, parse_real_literal, parse_real_point_notation, parse_real_exponent_notation"]}
{"id": "C88", "title": "String literals in DSDL denote the string written", "statement": "A string literal has exactly the characters that the table of escape sequences gives, any other use of a backslash is refused, and a printed string reads back as itself.", "quantifier": "every text between quotation marks; every string", "why_tests_cant": "all strings and escape sequences", "anchors": ["canadensis_dsdl_parser/src/ast/unescape.rs: unescape_string", "canadensis_dsdl_frontend/src/types.rs: Display for StringValue"]}
{"id": "C89", "title": "DSDL expressions have the values that arithmetic and set theory give them", "statement": "Each operator, applied to numbers, characters, strings, booleans or sets of them, gives the number, truth value or set that it denotes: exact rational arithmetic, operators on sets apply to each element, | & ^ are union, intersection and symmetric difference, comparisons of sets are inclusion; min, max and count are the least, the greatest and the number of the elements. Nested expressions combine these. An assertion `_offset_ % d == {..}` holds if and only if it is true of every possible offset.", "quantifier": "every operator, every pair of operands, every expression and every environment", "why_tests_cant": "rational numbers, sets and sets of bit lengths are unbounded", "anchors": ["canadensis_dsdl_frontend/src/types/expression.rs: evaluate_expression", "canadensis_dsdl_frontend/src/operators/mod.rs: calculate_elementwise_binary, calculate_rational_or_set_binary, calculate_rational_or_set_comparison", "canadensis_dsdl_frontend/src/types/set.rs: Set"]}
{"id": "C90", "title": "No DSDL expression makes the compiler panic", "statement": "Evaluating an expression returns a value or an error, whatever the expression, and the values it makes are proper: the elements of a set have one type.", "quantifier": "every expression and every environment", "why_tests_cant": "expressions are nested without bound", "anchors": ["canadensis_dsdl_frontend/src/types/expression.rs: evaluate_expression, evaluate_atom", "canadensis_dsdl_frontend/src/operators/attribute.rs: evaluate"]}
{"id": "C91", "title": "Constants fit their declared types", "statement": "A constant declaration is accepted if and only if its value fits into the declared type (an integer in the range of the type, a boolean, or a character for uint8), and the compiled constant has exactly that value.", "quantifier": "every primitive type and every value", "why_tests_cant": "all widths and all numbers around their bounds", "anchors": ["canadensis_dsdl_frontend/src/types/constant.rs: check_type_compatibility, signed_int_bounds, unsigned_int_bounds"]}
{"id": "C92", "title": "Identifiers and reserved words", "statement": "A name is accepted as an identifier exactly if it is a letter or underscore followed by letters, digits and underscores. A name is refused as reserved exactly if, ignoring case, it is one of the words of the specification, a primitive or void type name with any digits, a fixed-point type name, a numbered device name, or begins and ends with (different) underscores.", "quantifier": "every text", "why_tests_cant": "The set of texts is infinite and the pattern has nested repetition; tests sample a dozen names.", "anchors": ["canadensis_dsdl_frontend/src/types/keywords.rs: is_reserved_keyword, is_valid_identifier"]}
{"id": "C93", "title": "Type keys and file names are read as they are written", "statement": "A text is read as a type key exactly if it is the names of at least one package and of the type and two numbers below 256, joined by dots; printing a key and reading it gives the same key, and different keys print differently. A file name is read exactly if it is an optional port ID below 2^32, a name, two numbers below 256 and one of the two extensions, joined by dots.", "quantifier": "every text and every key", "why_tests_cant": "All texts, all lengths of paths, all numbers with leading zeros.", "anchors": ["canadensis_dsdl_frontend/src/type_key.rs: TypeKey::from_str, Display", "canadensis_dsdl_frontend/src/package.rs: parse_file_name, info_from_path"]}
{"id": "C94", "title": "A package takes exactly the acceptable new names", "statement": "Adding a file succeeds exactly if its key has a package, a full name of at most 255 characters, only identifiers that are not reserved, a version other than 0.0, and no file in the package has the same key but for case. Success adds this file and nothing else; failure changes nothing. Whatever is added, a package never holds two keys that differ only in case.", "quantifier": "every package, every history of additions, every key", "why_tests_cant": "Histories are unbounded; duplicates must be found against everything added before, under case folding.", "anchors": ["canadensis_dsdl_frontend/src/package.rs: Package::add_file, add_string, add_files, try_insert, validate_full_key"]}
{"id": "C95", "title": "Compiling a package ends and compiles every file exactly once", "statement": "Package::compile ends for every package of files, also if types refer to each other in a cycle. On success there is exactly one compiled type for every file, under the name of the file and with its fixed port ID. The assertion that no type is compiled twice never fails.", "quantifier": "all packages of files with distinct keys, with any content", "why_tests_cant": "References between files form arbitrary graphs and are followed while other files are being compiled; a test sees a few graphs.", "anchors": ["canadensis_dsdl_frontend/src/compile.rs: compile, PersistentContext::compile, compile_one, type_by_key", "canadensis_dsdl_frontend/src/package.rs: Package::compile"]}
{"id": "C96", "title": "A compiled type embeds exactly the compiled types it refers to, and never itself", "statement": "Every composite type inside a compiled type, at any depth, is the message that the same compilation returns for the referenced key, and no type contains itself.", "quantifier": "all packages of files, all compiled types, any depth of nesting", "why_tests_cant": "The depth of nesting and the number of types are unbounded.", "anchors": ["canadensis_dsdl_frontend/src/compile.rs: type_by_key", "canadensis_dsdl_frontend/src/types.rs: ScalarType::resolve"]}
{"id": "C97", "title": "A type that is not deprecated never contains a deprecated type", "statement": "If compilation succeeds, no message without @deprecated contains a deprecated message at any depth; @deprecated marks both the request and the response of a service.", "quantifier": "all packages of files, any depth of nesting", "why_tests_cant": "The rule is checked per field; that it holds through all levels is a statement about all graphs of types.", "anchors": ["canadensis_dsdl_frontend/src/compile.rs: check_deprecated_in_non_deprecated, handle_deprecated"]}
{"id": "C98", "title": "A compiled type is what its file declares", "statement": "For every compiled type: its members are the attributes of the file in order, with the types that the file names (in the package of the file if the reference has no namespace), and array capacities as the length expressions say; its constants are those declared, with the values of their expressions; its extent is the one of the single @sealed or @extent; it is a union if and only if @union was given; it is a service if and only if the marker occurs, and then the request and response come from the two parts.", "quantifier": "all packages of files, all sequences of statements", "why_tests_cant": "Files are arbitrary sequences of statements.", "anchors": ["canadensis_dsdl_frontend/src/compile.rs: compile_one_inner, add_field, add_padding_field, handle_service_response_marker, finish, apply_sealed_or_extent", "canadensis_dsdl_frontend/src/types/directive.rs: evaluate_directive", "canadensis_dsdl_frontend/src/types/constant.rs: evaluate", "canadensis_dsdl_frontend/src/types.rs: resolve"]}
{"id": "C99", "title": "Lengths and alignment flags of compiled types are those of their layout", "statement": "The set of bit lengths of a compiled message contains the length of every serialized value, and a field is marked as always aligned exactly when the lengths before it are all multiples of eight; request, response and message lengths are padded to bytes alike.", "quantifier": "all packages of files, all compiled types", "why_tests_cant": "The sets are infinite families built by nesting; tests expand a few.", "anchors": ["canadensis_dsdl_frontend/src/compile.rs: add_field, add_padding_field, make_union_bit_length, finish, handle_service_response_marker", "canadensis_dsdl_frontend/src/compiled.rs: Field"]}
{"id": "C100", "title": "Statements out of order and failing assertions are errors", "statement": "If a package compiles, then in every file: no attribute follows @sealed or @extent; @union and @deprecated come before all attributes and occur at most once; unions have no padding and at least two variants; each section has exactly one @sealed or @extent; @deprecated is not in the response; there is at most one marker; constants are not declared twice; no unknown directive occurs; and every @assert of an arithmetic expression is true.", "quantifier": "all packages of files, all sequences of statements", "why_tests_cant": "Sequences of statements are unbounded; tests try a few wrong orders.", "anchors": ["canadensis_dsdl_frontend/src/compile.rs: handle_union, handle_deprecated, apply_sealed_or_extent, add_field, add_padding_field", "canadensis_dsdl_frontend/src/types/directive.rs: evaluate_directive"]}
{"id": "C101", "title": "Compiled types follow the rules for names and extents", "statement": "Attributes of a compiled message have different names, none of them reserved; unions have at least two variants; an extent is a multiple of eight bits and not smaller than the longest serialized value.", "quantifier": "all packages of files, all compiled types", "why_tests_cant": "The rules must hold for every accepted file.", "anchors": ["canadensis_dsdl_frontend/src/compile.rs: add_field, apply_sealed_or_extent", "canadensis_dsdl_frontend/src/types/directive.rs: handle_extent"]}
{"id": "C102", "title": "A package that follows the rules is accepted", "statement": "If every file of a package has its statements in the allowed order, with one @sealed or @extent per section, expressions that have values of the needed kind, true assertions, different names, constants that fit their types, references to types of the package that are messages, are not cyclic and are not deprecated unless the referring type is, and lengths that fit into 64 bits, then compiling the package succeeds and returns the declared types.", "quantifier": "all packages of files with distinct keys whose expressions are arithmetic or logical, any number of files, any order of files and any depth of references", "why_tests_cant": "That no valid package is rejected, whatever the order in which files are compiled, is a statement about all packages.", "anchors": ["canadensis_dsdl_frontend/src/compile.rs: PersistentContext::compile, compile_one_inner, type_by_key, add_field, add_padding_field, handle_union, handle_deprecated, handle_service_response_marker, finish, apply_sealed_or_extent", "canadensis_dsdl_frontend/src/types/directive.rs: evaluate_directive", "canadensis_dsdl_frontend/src/types/constant.rs: evaluate", "canadensis_dsdl_frontend/src/types.rs: resolve"]}
{"id": "C103", "title": "Parsing any text ends without a panic", "statement": "For every text, parsing a DSDL file ends, and returns either statements or an error; no assertion, unwrap or unreachable branch that relates the grammar to the syntax tree can fail.", "quantifier": "all texts of Unicode characters, of any length and nesting", "why_tests_cant": "The panics guard assumptions about which pairs the grammar produces; that no text breaks them takes an argument about all matches of all rules.", "anchors": ["canadensis_dsdl_parser/src/dsdl.pest: definition, line, statement, expression and all other rules", "canadensis_dsdl_parser/src/lib.rs: parse", "canadensis_dsdl_parser/src/ast.rs: parse_to_ast, parse_statement, parse_expression and all functions"]}
{"id": "C104", "title": "A file is read as the statements that it is written for", "statement": "A text that is written by the rules of DSDL for a list of statements and comments is accepted and returned as exactly that list: operators with their precedence and associativity, literals with their values, types with widths and versions, array bounds, directives, names.", "quantifier": "all lists of statements and comments, all ways to write them: blanks, parentheses, number notations, line ends", "why_tests_cant": "The grammar tries alternatives in order and never returns to a choice; that no choice cuts off a valid text is a statement about all texts.", "anchors": ["canadensis_dsdl_parser/src/dsdl.pest: definition, line, statement, expression and all other rules", "canadensis_dsdl_parser/src/lib.rs: parse", "canadensis_dsdl_parser/src/ast.rs: parse_to_ast, parse_statement, parse_expression and all functions"]}
{"id": "C105", "title": "Only texts that follow the rules are accepted", "statement": "If a text is accepted, it is written by the rules of DSDL for the statements and comments that are returned; nothing is skipped, invented or reordered.", "quantifier": "all texts", "why_tests_cant": "The set of texts is infinite; a wrong rule shows up only for the texts it matters for.", "anchors": ["canadensis_dsdl_parser/src/dsdl.pest: definition, line, statement, expression and all other rules", "canadensis_dsdl_parser/src/lib.rs: parse", "canadensis_dsdl_parser/src/ast.rs: parse_to_ast, parse_statement, parse_expression and all functions"]}
{"id": "C106", "title": "Operators bind by the table of the specification", "statement": "In an expression with two binary operators, the operand between them belongs to the stronger one: ** before * / % before + - before | ^ & before comparisons before || &&. Of equally strong ones it belongs to the left, except for **, where it belongs to the right.", "quantifier": "all pairs of operators, all operands that are atoms (literals, names, parentheses, sets, types), all blanks between them", "why_tests_cant": "17 by 17 pairs with all operands; a test picks a few.", "anchors": ["canadensis_dsdl_parser/src/dsdl.pest: definition, line, statement, expression and all other rules", "canadensis_dsdl_parser/src/lib.rs: parse", "canadensis_dsdl_parser/src/ast.rs: parse_to_ast, parse_statement, parse_expression and all functions"]}
{"id": "C107", "title": "Layout does not matter", "statement": "Empty lines, comments, blanks at the end of a line, and whether lines end with LF or CRLF, do not change the statements of a file.", "quantifier": "all lists of statements and all layouts of their texts", "why_tests_cant": "Any number of lines, each with any comment and blanks.", "anchors": ["canadensis_dsdl_parser/src/dsdl.pest: definition, line, statement, expression and all other rules", "canadensis_dsdl_parser/src/lib.rs: parse", "canadensis_dsdl_parser/src/ast.rs: parse_to_ast, parse_statement, parse_expression and all functions"]}
{"id": "C108", "title": "A constant can be referred to by its name", "statement": "Every identifier that can be declared as the name of a constant can be used in an expression for that constant.", "quantifier": "all identifiers that are not reserved", "why_tests_cant": "A statement about all names; violated for names that start like a type or truth value, such as boolean_count.", "anchors": ["canadensis_dsdl_parser/src/dsdl.pest: definition, line, statement, expression and all other rules", "canadensis_dsdl_parser/src/lib.rs: parse", "canadensis_dsdl_parser/src/ast.rs: parse_to_ast, parse_statement, parse_expression and all functions"]}
{"id": "C109", "title": "From the text of files to types", "statement": "Compiling a package of DSDL files returns a type for a file only if its text is written by the rules for statements that declare this type and whose assertions hold; a package whose texts are written for statements that declare types is accepted with these types.", "quantifier": "all packages of files as text, any number of files in any order", "why_tests_cant": "Joins the claims about texts, expressions and packages for all packages.", "anchors": ["canadensis_dsdl_parser/src/dsdl.pest: definition, line, statement, expression and all other rules", "canadensis_dsdl_parser/src/lib.rs: parse", "canadensis_dsdl_parser/src/ast.rs: parse_to_ast, parse_statement, parse_expression and all functions", "canadensis_dsdl_frontend/src/compile.rs: compile_one_inner", "canadensis_dsdl_frontend/src/lib.rs: compile"]}
{"id": "C110", "title": "Types of external packages are used, not generated", "statement": "No code is generated for types in a package that is registered as external or inside of one, and code is generated for all others. A reference to a type names the Rust module of the innermost registered package around it, followed by the rest of its path and its version, or the module where it is generated.", "quantifier": "all packages, all maps of external packages, nested in any way", "why_tests_cant": "Registered packages can be nested and overlap; the rule is about all of them at any depth.", "anchors": ["canadensis_codegen_rust/src/lib.rs: generate_code, generate_from_dsdl, generate_rust_type, RustTypeName, external_module", "canadensis_codegen_rust/src/module_tree.rs: ModuleTree"]}
{"id": "C111", "title": "Generated names do not clash", "statement": "No two types in a generated module, no two constants in a module, and no two fields or variants of a type have the same name.", "quantifier": "all compiled packages and all names in them", "why_tests_cant": "Names are converted (underscores, snake case, camel case), and whether two different names become equal depends on all pairs of names; violated for '_' and '_0', for 'a_b' and 'aB' in a union, and for constants of types like FooBar and Foo_Bar.", "anchors": ["canadensis_codegen_rust/src/lib.rs: generate_code, generate_from_dsdl, generate_rust_type, RustTypeName, external_module", "canadensis_codegen_rust/src/module_tree.rs: ModuleTree"]}
{"id": "C112", "title": "Generated names are valid in Rust", "statement": "Every module, type, constant, field and variant that is generated has a name that Rust accepts as an identifier.", "quantifier": "all compiled packages and all names in them", "why_tests_cant": "A statement about all names; violated for keywords such as match, for types such as _0, for the variant self.", "anchors": ["canadensis_codegen_rust/src/lib.rs: generate_code, generate_from_dsdl, generate_rust_type, RustTypeName, external_module", "canadensis_codegen_rust/src/module_tree.rs: ModuleTree"]}
{"id": "C113", "title": "Types are generated where they are expected and refer to each other", "statement": "The type for a message, request or response is in the module made of its package, its name in snake case and its version. Its fields or variants are those of the file, in order, with Rust types that hold their values. Whatever it refers to inside the package has been generated too. No module has two modules of the same name.", "quantifier": "all compiled packages of any size and depth", "why_tests_cant": "Modules are merged in a tree; types refer to each other in any way.", "anchors": ["canadensis_codegen_rust/src/lib.rs: generate_code, generate_from_dsdl, generate_rust_type, RustTypeName, external_module", "canadensis_codegen_rust/src/module_tree.rs: ModuleTree"]}
{"id": "C114", "title": "Constants for port IDs", "statement": "A type with a fixed port ID, and no other, comes with a constant SUBJECT or SERVICE in its module, whose value is that ID.", "quantifier": "all compiled packages and all port IDs", "why_tests_cant": "A few IDs can be tested; violated for IDs that are out of range, which are accepted and truncated.", "anchors": ["canadensis_codegen_rust/src/lib.rs: generate_code, generate_from_dsdl, generate_rust_type, RustTypeName, external_module", "canadensis_codegen_rust/src/module_tree.rs: ModuleTree", "canadensis_core/src/lib.rs: SubjectId::from_truncating, ServiceId::from_truncating"]}
{"id": "C115", "title": "Types marked as enums become enums, or there is an error", "statement": "A type whose comment has a line that begins with [canadensis(enum)] becomes an enum with one variant for each constant if it is a struct with one unsigned field, all constants have the type of that field, and their values differ. Otherwise there is an error. There are no other errors.", "quantifier": "all compiled packages and all comments", "why_tests_cant": "The combinations of fields, constants and comments are unbounded; violated for constants from 2^32, for which the generator panics.", "anchors": ["canadensis_codegen_rust/src/struct_as_enum.rs: has_enum_directive, generate_enum_from_struct"]}
{"id": "C116", "title": "Enums are encoded like the struct in the file", "statement": "Serializing a variant of such an enum gives the same bits as the struct of the file whose field is the value of the constant; deserializing gives that variant, and an error for a value that no constant has.", "quantifier": "all marked types, all variants, all buffers and all bytes", "why_tests_cant": "All widths, values and buffers; violated for fields of more than 32 bits and for constants from 2^31.", "anchors": ["canadensis_codegen_rust/src/struct_as_enum.rs: has_enum_directive, generate_enum_from_struct", "canadensis_codegen_rust/src/impl_serialize.rs: ImplementSerialize", "canadensis_codegen_rust/src/impl_deserialize.rs: deserialize_enum, CallReadAligned"]}
{"id": "C117", "title": "Generating code does not panic", "statement": "Generating code from a compiled package and writing it ends without a panic: no unreachable branch, assertion or conversion of numbers fails.", "quantifier": "all compiled packages", "why_tests_cant": "The assertions relate parts of the frontend and the generator for every package; violated for extents of 4 GiB and large constants of enums.", "anchors": ["canadensis_codegen_rust/src/lib.rs: generate_code, generate_from_dsdl, generate_rust_type, RustTypeName, external_module", "canadensis_codegen_rust/src/module_tree.rs: ModuleTree", "canadensis_codegen_rust/src/impl_data_type.rs: ImplementDataType", "canadensis_codegen_rust/src/impl_constants.rs: ImplementConstants"]}
{"id": "C118", "title": "Zero-copy types consist of zero-copy types", "statement": "The traits for zero-copy encoding are derived only for structs all of whose fields are numbers, arrays of numbers, or types for which the traits are derived too.", "quantifier": "all compiled packages, nesting of any depth", "why_tests_cant": "Nesting is unbounded; violated if a field has a type that is marked as an enum.", "anchors": ["canadensis_codegen_rust/src/lib.rs: supports_zero_copy, message_supports_zero_copy, type_supports_zero_copy"]}
{"id": "C119", "title": "The bxCAN driver accounts for every frame", "statement": "A frame that the bxCAN driver takes is sent, or aborted after its deadline, or given back unchanged because a more urgent frame needs its mailbox, or stays in a mailbox; it is never lost or sent twice. A frame is refused only while a frame of the same or a higher priority waits. No call panics.", "quantifier": "all histories of calls and of the hardware, all frames and times", "why_tests_cant": "Which mailbox is free, which frame is displaced and when frames leave the hardware varies with every history; violated in one point: the frame given back has lost its loopback flag.", "anchors": ["canadensis_bxcan/src/lib.rs: transmit, transmit_inner, clean_expired_frames, DeadlineTracker"]}
{"id": "C120", "title": "The bxCAN driver loops frames back", "statement": "Each frame that is taken and asks for loopback is received back, once, in order, with the time of transmission.", "quantifier": "all histories of calls and of the hardware", "why_tests_cant": "Copies wait in a queue while anything else happens; violated: the copy of a third waiting frame is lost, and copies are received of frames that are never sent.", "anchors": ["canadensis_bxcan/src/lib.rs: transmit, receive, loopback_queue"]}
{"id": "C121", "title": "The bxCAN driver receives what passes the filters", "statement": "The frames received are exactly the extended data frames that pass the hardware filters, in the order of arrival and with the time of the call; overruns are reported; loopback copies come when nothing else waits.", "quantifier": "all histories of calls and of the hardware", "why_tests_cant": "Frames of all kinds arrive in any order between calls that change filters.", "anchors": ["canadensis_bxcan/src/lib.rs: receive, receive_from_bus, bxcan_frame_to_cyphal"]}
{"id": "C122", "title": "The filters of the bxCAN driver never hide a wanted frame", "statement": "Applying filters for any subscriptions never panics; afterwards each frame that a subscription needs passes, even if there is not enough memory or there are not enough filter banks; if there are enough, only these pass.", "quantifier": "all sets of subscriptions, numbers of filter banks, and failures of allocation", "why_tests_cant": "Filters are merged in ways that depend on all subscriptions.", "anchors": ["canadensis_bxcan/src/lib.rs: apply_filters, apply_accept_all", "canadensis_can/src/driver.rs: optimize_filters"]}
{"id": "C123", "title": "Queue and bxCAN driver together lose no frame and keep order", "statement": "Each frame given to a transmit queue in front of the bxCAN driver is sent once, or dropped after its deadline, or still is in a mailbox or the queue. Frames with the same identifier are sent in the order given.", "quantifier": "all sequences of pushes and flushes, all readings of the clock, all times at which the hardware sends a frame", "why_tests_cant": "Frames move from the queue to mailboxes and back while time passes and mailboxes are emptied.", "anchors": ["canadensis_can/src/queue/mod.rs: flush_single_queue", "canadensis_can/src/queue/array_queue.rs: ArrayQueue", "canadensis_bxcan/src/lib.rs: transmit"]}
{"id": "C124", "title": "Flushing into the bxCAN driver ends", "statement": "A flush ends after a number of rounds bounded by the capacity of the queue and never fails. If it succeeds the queue is empty; if it would block, a frame in a mailbox has the same or a higher priority than every frame in the queue.", "quantifier": "all states of queue and driver, all readings of the clock, all times at which the hardware sends a frame", "why_tests_cant": "Frames that are given back go into the queue again, so that termination is not obvious: a driver that always gives a frame back would keep a flush going for ever.", "anchors": ["canadensis_can/src/queue/mod.rs: flush_single_queue", "canadensis_bxcan/src/lib.rs: transmit"]}
{"id": "C125", "title": "The Linux CAN driver", "statement": "A frame is written only before its deadline, and exactly if the call succeeds. Receiving returns the next extended data frame that fits, with the time of the call. Filters pass exactly what subscriptions need and never panic. Readings of the clock less than 2^31 microseconds apart compare in the right order.", "quantifier": "all frames, all sequences of events on the socket, all subscriptions, all times", "why_tests_cant": "Sequences of events and sets of subscriptions are unbounded; violated: remote frames are received as data frames, and more than 512 subscriptions, or no memory, cause a panic.", "anchors": ["canadensis_linux/src/lib.rs: LinuxCan, SystemClock"]}
{"id": "C126", "title": "Transfers arrive over a CAN bus", "statement": "If a node puts transfers on a port into its output queue, with consecutive transfer IDs, their deadlines do not pass and the hardware sends all frames, then another node that is subscribed to the port and reads all frames delivers exactly these transfers, each once and in the order in which they were sent, whatever else is sent, received and subscribed to in between.", "quantifier": "all transfers, all sequences of pushes and flushes, all readings of the clock, all orders in which mailboxes are sent, all traffic of other nodes, all histories of the receiver", "why_tests_cant": "The frames go through a priority queue, three mailboxes from which they may be taken back, hardware filters, a FIFO and reassembly, interleaved with any other frames; violated: a transfer is lost if one of a higher priority follows on the same port while it is being sent.", "anchors": ["canadensis_can/src/tx.rs: push_inner", "canadensis_can/src/queue/mod.rs: flush_single_queue", "canadensis_bxcan/src/lib.rs: transmit, receive, apply_filters", "canadensis_can/src/rx.rs: accept"]}
{"id": "C127", "title": "Warnings name exactly what breaks the conventions", "statement": "When DSDL files compile, the compiler warns once about every part of a package name, type name, field, variant and constant that is not in the style for it, and about nothing else; warnings change nothing in the result, and the name that a warning suggests can be used in place of the one it is about.", "quantifier": "all packages that compile, all names", "why_tests_cant": "Names are split into words at underscores and changes of case, and the result is compared with the name; this must be right for every name. Violated: suggestions can be empty, no identifier, reserved or taken, and types in lowercase are not reported.", "anchors": ["canadensis_dsdl_frontend/src/warning.rs: check_pre_compile, check_post_compile, check_message, check_field_name, is_permissive_snake_case, is_permissive_upper_camel_case", "canadensis_dsdl_frontend/src/compile.rs: compile_one_inner"]}
{"id": "C128", "title": "Comments in DSDL files become documentation of what they belong to", "statement": "A comment never changes what a DSDL file is compiled to. Every comment becomes a line of the documentation of the last constant, field or variant before it in its message, request or response, or of the type if there is none, in the order of the file, and nothing else becomes documentation; so a type is generated as an enum exactly if one of its comments begins with [canadensis(enum)].", "quantifier": "all packages that compile, all comments and their positions", "why_tests_cant": "Where a comment goes depends on the state of the compiler, the kind of type, what was declared last and on which side of the marker it is. Violated: comments after @sealed or @extent, before the first member of a union and after a use of the offset are dropped.", "anchors": ["canadensis_dsdl_frontend/src/compile.rs: handle_comment, apply_comment_to_constant_or_field, apply_comment_to_constant_or_variant, handle_service_response_marker", "canadensis_dsdl_frontend/src/compiled.rs: comments, append_comment", "canadensis_codegen_rust/src/struct_as_enum.rs: has_enum_directive"]}
{"id": "C129", "title": "A program reports the CRC of the image that it is in", "statement": "After canadensis_write_crc has run on an image, get_crc in the program returns the CRC-64/WE of the image file with zeros in place of the CRC. Nothing else in the file changes but the flag; running the tool again changes nothing. Wherever the tool is stopped, the file is the old or the complete new one, and no other file is touched. The tool never panics.", "quantifier": "all image files, positions of the two statics, contents of the directory, and points at which the tool is stopped", "why_tests_cant": "The CRC is part of what it is calculated of, the offsets come from the symbol table, and an interruption can come anywhere. Violated: the byte order of the target is ignored; an image named *.tmp is overwritten in place; another file with the temporary name is lost; symbols outside of the file cause a panic.", "anchors": ["canadensis_write_crc/src/main.rs: run, find_symbol_file_offset, clear_crc, write_crc, write_crc_valid, crc_64_we, pad_to_8_bytes", "canadensis_crc/src/lib.rs: get_crc"]}
{"id": "C130", "title": "The fixed-capacity list of subject IDs is compatible with SubjectIDList.1.0", "statement": "A SubjectIdList<N> is serialized into the bytes of the same list as a generated uavcan.node.port.SubjectIDList.1.0, size_bits says how many bits they have, and they deserialize into the list. From any bytes, SubjectIdList<N> gets what the generated type gets if that has at most N IDs, else an error; never a panic, never an ID above 8191.", "quantifier": "all N, lists of up to N subject IDs, buffers and received bytes", "why_tests_cant": "The two implementations share no code, and there are 2^(13*255) lists and any bytes can be received; tests compare three lists. Violated: N above 255 is accepted and the length is truncated; lists in the form of a mask, and the list of all IDs, are refused.", "anchors": ["canadensis_data_types/src/optimized.rs: SubjectIdList", "canadensis_core/src/lib.rs: SubjectId::from_truncating"]}
{"id": "C131", "title": "types_from_dsdl! generates code from exactly what its statements ask for", "statement": "The macro expands to the code that the generator makes of the compiled types of all package(...) and type statements, with the packages of all make_external(...) statements as external, or to an error. It is an error if a statement is not well-formed, a type can not be in a package or is there twice, a package is made external twice, another environment variable than CARGO_MANIFEST_DIR is used, or anything follows generate. The macro itself never panics. Nothing that is written is ignored.", "quantifier": "all token trees, environments and directories", "why_tests_cant": "The input is any sequence of token trees, nested to any depth; tests have five inputs. Violated: without generate, nothing is generated and no error is reported; options in generate(...) are ignored.", "anchors": ["canadensis_macro/src/input.rs: Input::parse, parse_statement, parse_function, parse_inline_type", "canadensis_macro/src/lib.rs: types_from_dsdl, eval_path_arguments, eval_make_external_function, eval_inline_type"]}
{"id": "C132", "title": "The FlexCAN driver transmits every accepted frame once, unchanged and in order of priority", "statement": "A frame that send accepts is transmitted exactly once and unchanged, or given back when a frame that wins arbitration takes its place; a frame is refused only while one that it does not beat waits. No call panics, and every call returns. The order of frames in the driver is that of arbitration on the bus, and headers and data survive being written to and read from a message buffer.", "quantifier": "all sequences of frames, all schedules of the CAN controller between any two register accesses, all buffers and headers", "why_tests_cant": "The controller acts between any two accesses of the driver; tests run without one and check five headers. Violated: with a frame that beats the one in the buffer, send waits while the flag is set that shows the outcome, so it never returns once the outcome is known, and gives a frame back that is transmitted as well if it is not; frames of more than eight bytes are cut.", "anchors": ["examples/s32k146_node/src/flexcan/mod.rs: FlexCan::send", "examples/s32k146_node/src/flexcan/buffer/header.rs: Header::from_bits, as_bits, compare_transmit_priority", "examples/s32k146_node/src/flexcan/buffer.rs: Message, shift_index", "examples/s32k146_node/src/flexcan/frame.rs: Frame, Dlc", "examples/s32k146_node/src/flexcan/id.rs: Id"]}
{"id": "C133", "title": "The FlexCAN driver receives every frame once, unchanged and in order; buffers do not overlap; the bit timing is the one asked for", "statement": "Each call of receive returns the first frame that waits, unchanged, and nothing only if none waits; the node gets exactly the extended data frames. Message buffers of one size never overlap, stay in one block and in the memory that is counted, and the FIFO overlaps exactly the buffers that its filters displace. The register of the bit timing holds the lengths that were asked for and keeps its other bits. No received frame causes a panic.", "quantifier": "all histories of arriving frames and calls, all words that the controller may present, all buffer numbers, sizes, numbers of blocks and filters, all register values and timings", "why_tests_cant": "Received words come from other nodes; tests check a few offsets and no received frame. Violated: a frame with a data length code of 9 to 15, which classic CAN allows, makes the call panic and stays first; a remote frame is given to the node as a data frame of zeros.", "anchors": ["examples/s32k146_node/src/flexcan/mod.rs: FlexCan::receive, init", "examples/s32k146_node/src/flexcan/fifo_legacy.rs: LegacyFifo", "examples/s32k146_node/src/main.rs: FlexCanDriver::receive", "examples/s32k146_node/src/flexcan/config.rs: message_buffer_space, legacy_fifo_space, StandardTiming", "examples/s32k146_node/src/flexcan/blocks.rs: Blocks, MessageBufferSize"]}
{"id": "C134", "title": "The plug-and-play client for bxCAN devices sends its requests and returns exactly the node IDs that are offered to it", "statement": "Each publish_request of a BxCanPnpClient gives the device one anonymous request with the hash of the unique ID, as often as it is called. handle_incoming_frames returns exactly the node IDs offered to this unique ID by the transfers received on the allocation subject; every ID that an allocator on the bus offers is returned once the frames have been handled. No frames on the bus and no sequence of calls cause a panic.", "quantifier": "all unique IDs, all histories of calls, times, failing allocations, frames arriving on the bus, frames lost and frames sent by the device, all numbers of filter banks, all histories of an allocator", "why_tests_cant": "The client is driven by frames and times that no test enumerates. Violated: requests only reach a queue of one frame that nothing empties, so in no history is a request sent, and each request after the first one panics; two frames without data cause a panic in handle_incoming_frames.", "anchors": ["canadensis_bxcan/src/pnp.rs: BxCanPnpClient::new, publish_request, handle_incoming_frames, free", "canadensis_pnp_client/src/lib.rs: PnpClient", "canadensis_can/src/rx.rs: CanReceiver::receive", "canadensis_can/src/queue/mod.rs: SingleQueueDriver", "canadensis_can/src/queue/single_frame_queue.rs: SingleFrameQueue"]}
{"id": "C135", "title": "The tool optimize_filters prints filters that let through every identifier given to it", "statement": "Called with a number of filters and identifiers of at most 29 bits in hexadecimal, the tool succeeds and prints a table with at most that number of filters; each identifier is let through by a filter in the table, and if there are enough filters, exactly the identifiers given are. For all other arguments it fails and prints nothing on standard output. It never panics.", "quantifier": "all command lines", "why_tests_cant": "Numbers, identifiers and their text are unbounded in combination. Violated: with zero filters the tool succeeds with an empty table.", "anchors": ["canadensis_filter_config/bin/optimize_filters.rs: run, get_args, parse_hex_with_prefix, print_filters", "canadensis_filter_config/src/lib.rs: optimize"]}
{"id": "C136", "title": "The code generator writes what it generated, or reports an error", "statement": "canadensis_codegen_rust compile writes the code generated from the folders given to the output file, with types of external packages replaced by the modules given, formatted if and only if --rustfmt is given. If reading, compiling or generating fails, no file is created. If the exit status is 0, the file holds all of the code.", "quantifier": "all command lines, packages, generated codes, devices with any room and results of rustfmt", "why_tests_cant": "Errors can occur at each step and each byte. Violated: --external-package always ends in a panic or an error; rustfmt is always run; errors while the last 8 KiB are written are ignored; the text behind a second comma of an external package is ignored.", "anchors": ["canadensis_codegen_rust/src/main.rs: run, get_args, ExternalPackage::parse, run_rustfmt"]}
{"id": "C137", "title": "Messages published by one node reach the handler of another node over a CAN bus", "statement": "A node (core node, output queue, bxCAN driver) publishes messages on a subject with one priority, among any other operations. The transfer IDs of successive messages sent differ (always so if publishing was started once and no message was refused), deadlines do not pass, and all frames have been sent. Another node that is subscribed to the subject has read these frames, in the order sent, among any others. Then its handler gets exactly the messages for which publish returned Ok, each once, in order, with payloads cut to the maximum size.", "quantifier": "all histories of both nodes, subjects, payloads, queue sizes, schedules of sending and receiving, other traffic", "why_tests_cant": "Involves all layers from publish to the handler with unbounded histories and interleavings. If a publisher is stopped and started again, the first message can be lost although publish returned Ok (C137_restart_lost).", "anchors": ["canadensis/src/node/core.rs: publish, receive", "canadensis/src/publisher.rs: publish", "canadensis_can/src/tx.rs: push, flush", "canadensis_can/src/queue", "canadensis_bxcan/src/lib.rs", "canadensis_can/src/rx.rs: accept"]}
{"id": "C138", "title": "Remote procedure calls over a CAN bus: each request accepted gets its own answer", "statement": "A client and a server (core nodes with output queues and bxCAN drivers) do anything, also with other nodes. Under the conditions of C137 the server's handler gets exactly the requests for which send_request returned a transfer ID, each once and in order, with tokens for this client and this transfer ID. If the server answers each of them with f of the payload, the client's handler gets for each transfer ID that send_request returned exactly one response, with this ID and f of the request's payload.", "quantifier": "all histories of both nodes, services, payloads, functions f, queue sizes, schedules of sending and receiving, other traffic including requests and responses of other nodes on the same service", "why_tests_cant": "Involves all layers on two nodes in both directions, with unbounded histories and interleavings.", "anchors": ["canadensis/src/node/core.rs: send_request, send_response, receive", "canadensis/src/requester.rs: send", "canadensis_core/src/transfer.rs", "canadensis_can/src/tx.rs: push, flush", "canadensis_bxcan/src/lib.rs", "canadensis_can/src/rx.rs: accept"]}
{"id": "C139", "title": "The hardware filters of a CAN node let through everything for the ports it is subscribed to", "statement": "After any history of a CAN node (any calls, flushes, receptions, frames on the bus): every frame on the bus that is addressed to the node (or to all nodes) on a port to which it is subscribed at this time passes the acceptance filters of its hardware, whatever other subscriptions were made, changed or removed and whatever allocations failed.", "quantifier": "all histories of a node, ports, frames, numbers of filter banks (at least one), results of allocations", "why_tests_cant": "The filters are derived from the subscriptions at each change and merged when there are too many; whether they always fit the current subscriptions and node ID depends on the whole history. They do not after set_node_id: requests and responses are lost until the next change of subscriptions.", "anchors": ["canadensis/src/node/core.rs: set_node_id, subscribe_message, subscribe_request, start_sending_requests", "canadensis_can/src/rx.rs: apply_frame_filters, set_id, subscribe_*, unsubscribe_*", "canadensis_bxcan/src/lib.rs: apply_filters"]}
{"id": "C140", "title": "A CAN node does not panic", "statement": "After any history of a CAN node (any calls, flushes, receptions, frames on the bus, lost frames, failed allocations): whatever function is called next, and whatever the hardware or the bus does next, the node does not panic; requests are sent with tokens that start_sending_requests has returned, responses by a node with an ID.", "quantifier": "all histories of a node with its queue, receiver and bxCAN driver; all calls, frames, times and results of allocations", "why_tests_cant": "A panic needs a certain history of subscriptions, partly received transfers, queue contents, mailboxes and filters; all of them together cannot be enumerated. Two short frames of another node do make it panic in a build with overflow checks.", "anchors": ["canadensis/src/node/core.rs: CoreNode (receive, flush, send_request, send_response, ...)", "canadensis_can/src/rx/buildup.rs: add_frame", "canadensis_can/src/queue/mod.rs: SingleQueueDriver", "canadensis_bxcan/src/lib.rs: BxCanDriver"]}
{"id": "C141", "title": "Messages of a node reach the handlers of another node over a serial link", "statement": "A node publishes messages on a subject with the serial transport, and all its bytes have gone to the driver. Another node has subscribed to the subject and kept the subscription, and has read these bytes, in any pieces and at any times, doing anything else in between. Then its handler has got exactly the messages for which publish returned Ok, in order, each once, with their transfer IDs and payloads cut to the size of the subscription.", "quantifier": "all histories of both nodes: all calls, payloads, flushes with any number of bytes accepted, arrivals and receptions in any pieces, times, other subscriptions", "why_tests_cant": "The result depends on every interleaving of pieces of bytes with calls on both sides and on all payload bytes through the escaping; tests sample a few. Payloads with a zero after 254 nonzero bytes and subjects that are started again lose messages.", "anchors": ["canadensis/src/node/core.rs: CoreNode (publish, receive, flush, subscribe_message)", "canadensis_serial/src/tx.rs: SerialTransmitter", "canadensis_serial/src/rx.rs: SerialReceiver", "canadensis_serial/src/cobs.rs: Unescaper, escape_from_iter"]}
{"id": "C142", "title": "Remote procedure calls over a serial link give each request its answer", "statement": "A client sends requests to a server over a serial link, and the server answers each request that it receives, in order. When all bytes have been sent and read in both directions, the server has received exactly the requests for which send_request returned a transfer ID, and the client has received for each of them exactly one response, with this ID and the answer to this request.", "quantifier": "all histories of client and server; all payloads, answers, pieces of bytes, other calls and subscriptions in between", "why_tests_cant": "Requests, responses and other transfers share one byte stream in each direction, and transfer IDs are counted per destination; the pairing must hold for every interleaving.", "anchors": ["canadensis/src/node/core.rs: CoreNode (send_request, send_response, start_sending_requests)", "canadensis/src/requester.rs: Requester", "canadensis_serial/src/tx.rs: SerialTransmitter", "canadensis_serial/src/rx.rs: SerialReceiver"]}
{"id": "C143", "title": "A serial node does not panic", "statement": "After any history of a serial node, with any bytes from the link, any calls, flushes and failed allocations: whatever function is called next and whatever bytes are read next, the node does not panic; requests are sent with tokens that start_sending_requests has returned, responses by a node with an ID.", "quantifier": "all histories of a node with its transmitter queue and receiver; all bytes, calls, times and results of allocations", "why_tests_cant": "A panic needs a certain history of subscriptions, partly received frames and queue contents, and the bytes come from outside.", "anchors": ["canadensis/src/node/core.rs: CoreNode", "canadensis_serial/src/tx.rs: SerialTransmitter (push, flush)", "canadensis_serial/src/rx.rs: SerialReceiver (receive)"]}
{"id": "C144", "title": "Messages of a node reach the handlers of another node over UDP", "statement": "A node publishes messages on a subject with the UDP transport; its datagrams are sent before their deadlines and arrive in order, mixed with any datagrams of others. Another node has subscribed to the subject and kept the subscription, and has read these datagrams, in any number of calls and at any times, doing anything else in between. Then its handler has got exactly the messages for which publish returned Ok, in order, each once, with their transfer IDs and payloads cut to the size of the subscription.", "quantifier": "all histories of both nodes: all calls, payloads, MTUs, datagrams of other nodes and malformed datagrams in between, receptions in any number of calls, times, other subscriptions", "why_tests_cant": "The result depends on every interleaving of datagrams of this and other nodes with calls on both sides, and on payload lengths relative to the MTU; tests sample a few. Payloads whose last datagram is short, datagrams that become late within publish and subjects that are started again lose messages.", "anchors": ["canadensis/src/node/core.rs: CoreNode (publish, receive, subscribe_message)", "canadensis_udp/src/tx.rs: UdpTransmitter (push)", "canadensis_udp/src/rx.rs: UdpReceiver (receive, subscribe_message)"]}
{"id": "C145", "title": "A UDP node does not panic while its clock runs forward", "statement": "After any history of a UDP node, with any datagrams from the network, any calls and failed allocations: whatever function is called next and whatever datagrams are read next, the node does not panic; requests are sent with tokens that start_sending_requests has returned, responses by a node with an ID.", "quantifier": "all histories of a node with its transmitter and receiver; all datagrams, calls, readings of the clock and results of allocations", "why_tests_cant": "A panic needs a certain history of subscriptions, sessions and times, and the datagrams come from outside; after a silence of more than 2^31 microseconds on a session a datagram does make it panic.", "anchors": ["canadensis/src/node/core.rs: CoreNode", "canadensis_udp/src/tx.rs: UdpTransmitter (push)", "canadensis_udp/src/rx.rs: UdpReceiver (receive)"]}
{"id": "C146", "title": "Remote procedure calls over UDP give each request its answer", "statement": "A client sends requests to a server over UDP, and the server answers each request that it receives, in order. When the datagrams were sent before their deadlines, and have arrived in order and been read in both directions, mixed with any other datagrams, the server has received exactly the requests for which send_request returned a transfer ID, and the client has received for each of them exactly one response, with this ID and the answer to this request.", "quantifier": "all histories of client and server; all payloads, answers, MTUs, requests to other servers, datagrams of other nodes, other calls and subscriptions in between", "why_tests_cant": "Requests to several servers leave through one socket and are told apart by group only, transfer IDs are counted per destination, and transfers are split at the MTU; the pairing must hold for every interleaving.", "anchors": ["canadensis/src/node/core.rs: CoreNode (send_request, send_response, start_sending_requests)", "canadensis/src/requester.rs: Requester", "canadensis_udp/src/tx.rs: UdpTransmitter (push)", "canadensis_udp/src/rx.rs: UdpReceiver", "canadensis_udp/src/address.rs: Address"]}
{"id": "C147", "title": "Only published messages are received over UDP, whatever the network loses, doubles or reorders", "statement": "A network loses, doubles, delays and reorders the datagrams of a node as it likes, and mixes them with others, but makes up none in the name of this node. Then each message of this node that a subscriber gets is one for which publish returned Ok, with its transfer ID and its payload, cut to the size of the subscription.", "quantifier": "all histories of publisher and subscriber, with any answers of socket and clock; all subsets, repetitions and orders of the datagrams, mixed with any others", "why_tests_cant": "The receiver rebuilds messages from datagrams that may be those of different messages or miss a part; that no wrong message comes out must hold for every loss, repetition and order, and tests try a few.", "anchors": ["canadensis/src/node/core.rs: CoreNode (publish, subscribe_message, receive)", "canadensis_udp/src/tx.rs: UdpTransmitter (push)", "canadensis_udp/src/rx.rs: UdpReceiver", "canadensis_udp/src/rx/buildup.rs: Buildup"]}
{"id": "C148", "title": "What the network loses over UDP does not take other messages with it", "statement": "When the network loses some of the datagrams of a publisher on a subject, and keeps the order of the others, a subscriber that reads them gets every message for which publish returned Ok and of which no datagram was lost, in order, each once.", "quantifier": "all histories of publisher and subscriber; all payloads, MTUs, lost datagrams, datagrams of other nodes and calls in between", "why_tests_cant": "What the receiver does with a message depends on the session that earlier, incomplete messages left behind; the losses and lengths are unbounded.", "anchors": ["canadensis/src/node/core.rs: CoreNode (publish, subscribe_message, receive)", "canadensis_udp/src/tx.rs: UdpTransmitter (push)", "canadensis_udp/src/rx.rs: UdpReceiver", "canadensis_udp/src/rx/buildup.rs: Buildup"]}
{"id": "C149", "title": "Only sent requests and responses are received over UDP, whatever the network loses, doubles or reorders", "statement": "A network loses, doubles, delays and reorders the datagrams between a client and a server as it likes, but makes up none in their names. Then each request that the server gets from the client is one for which send_request returned this transfer ID, to this server, with its payload; each response that the client gets is one for which send_response returned Ok, to this client, with the transfer ID of its token and its payload.", "quantifier": "all histories of client and server, with any answers of socket and clock; all subsets, repetitions and orders of the datagrams, mixed with any others", "why_tests_cant": "Datagrams of several transfers with equal IDs to different nodes leave through one socket; that the receiver never puts parts of different ones together must hold for every loss, repetition and order.", "anchors": ["canadensis/src/node/core.rs: CoreNode (send_request, send_response, receive)", "canadensis_udp/src/tx.rs: UdpTransmitter (push)", "canadensis_udp/src/rx.rs: UdpReceiver", "canadensis_udp/src/rx/buildup.rs: Buildup", "canadensis_udp/src/address.rs: Address"]}
{"id": "C150", "title": "Messages are received over UDP at most once and in order, whatever the network doubles or reorders", "statement": "A network loses, doubles, delays and reorders the datagrams of a publishing node as it likes, but makes up none in its name. As long as the readings of the subscriber's clock are within the timeout of its subscription, the subscriber's handler gets the messages of the node with increasing transfer IDs: no message twice, and none after a later one.", "quantifier": "all histories of both nodes, with any answers of socket and clock; all subsets, repetitions and orders of the datagrams, mixed with any others", "why_tests_cant": "Whether a repeated datagram is taken for a new message depends on what the receiver remembers of all earlier ones, in every order in which they can arrive.", "anchors": ["canadensis/src/node/core.rs: CoreNode (publish, receive)", "canadensis_udp/src/rx.rs: UdpReceiver, UdpSessionData", "canadensis_udp/src/tx.rs: UdpTransmitter (push)"]}
