{
 "claims": [
  {
   "property": "C01",
   "status": "proved",
   "theorems": [
    "C01_crc_tracker"
   ],
   "note": ""
  },
  {
   "property": "C02",
   "status": "proved",
   "theorems": [
    "C02_crc16_append_accepted",
    "C02_crc16_accepts_only_crc",
    "C02_crc16_detects_bursts",
    "C02_crc32_detects_bursts"
   ],
   "note": ""
  },
  {
   "property": "C03",
   "status": "partial",
   "theorems": [
    "C03_cobs_round_trip_partial",
    "C03_cobs_short_round_trip_partial",
    "C03_cobs_round_trip_refuted"
   ],
   "note": "The code violates the property: a zero after a run of a multiple of 254 non-zero bytes is lost. Proved: the round trip is exact if and only if the data has no such zero; the refutation is a theorem too."
  },
  {
   "property": "C04",
   "status": "proved",
   "theorems": [
    "C04_cobs_output",
    "C04_cobs_never_fails",
    "C04_escaped_size_tight",
    "C04_unescape_total"
   ],
   "note": ""
  },
  {
   "property": "C11",
   "status": "proved",
   "theorems": [
    "C11_header_round_trip",
    "C11_header_wire_form",
    "C11_core_header_round_trip"
   ],
   "note": ""
  },
  {
   "property": "C12",
   "status": "proved",
   "theorems": [
    "C12_header_decode_exact",
    "C12_header_reencode"
   ],
   "note": ""
  },
  {
   "property": "C53",
   "status": "partial",
   "theorems": [
    "C53_subscription_table",
    "C53_one_subscription_per_port",
    "C53_latest_subscription_partial",
    "C53_latest_subscription_refuted"
   ],
   "note": "The code violates the property only when an allocation fails while an existing subscription is being replaced: the old one is lost."
  },
  {
   "property": "C54",
   "status": "proved",
   "theorems": [
    "C54_linear_map",
    "C54_linear_map_full",
    "C54_array",
    "C54_array_total",
    "C54_dynamic_map"
   ],
   "note": ""
  },
  {
   "property": "C05",
   "status": "proved",
   "theorems": [
    "C05_serial_push_all_or_nothing",
    "C05_serial_flush_loses_nothing"
   ],
   "note": ""
  },
  {
   "property": "C06",
   "status": "proved",
   "theorems": [
    "C06_serial_delivery"
   ],
   "note": "The quantifier excludes the frames that COBS damages (C03)."
  },
  {
   "property": "C07",
   "status": "proved",
   "theorems": [
    "C07_serial_resynchronises",
    "C07_shared_delimiter_refuted"
   ],
   "note": "The refutation is of a stronger reading, where the garbage and the frame share one delimiter."
  },
  {
   "property": "C08",
   "status": "proved",
   "theorems": [
    "C08_serial_total",
    "C08_serial_receive_decomposes"
   ],
   "note": ""
  },
  {
   "property": "C09",
   "status": "partial",
   "theorems": [
    "C09_serial_delivers_asked_partial",
    "C09_serial_payload_bound_partial",
    "C09_serial_payload_bound_refuted"
   ],
   "note": "The code violates the size bound when a port is subscribed again with a smaller maximum in the middle of a frame; everything else is proved, and the bound is proved without such a change."
  },
  {
   "property": "C10",
   "status": "proved",
   "theorems": [
    "C10_serial_transfer_id_increases",
    "C10_serial_clean_exact"
   ],
   "note": ""
  },
  {
   "property": "C13",
   "status": "proved",
   "theorems": [
    "C13_can_id_round_trip",
    "C13_can_id_injective"
   ],
   "note": ""
  },
  {
   "property": "C14",
   "status": "proved",
   "theorems": [
    "C14_can_id_parse_total"
   ],
   "note": ""
  },
  {
   "property": "C28",
   "status": "proved",
   "theorems": [
    "C28_filter_exact"
   ],
   "note": ""
  },
  {
   "property": "C29",
   "status": "proved",
   "theorems": [
    "C29_optimize_covers",
    "C29_greedy_choice",
    "C29_subscriptions_not_blocked",
    "C29_reoptimize_refuted"
   ],
   "note": "C29_reoptimize_refuted records a hazard outside the property: the slice left behind by a first call contains used-up filters and must not be passed to a second call."
  },
  {
   "property": "C15",
   "status": "proved",
   "theorems": [
    "C15_segmentation_well_formed"
   ],
   "note": ""
  },
  {
   "property": "C16",
   "status": "proved",
   "theorems": [
    "C16_reservation_exact"
   ],
   "note": ""
  },
  {
   "property": "C17",
   "status": "proved",
   "theorems": [
    "C17_all_or_nothing",
    "C17_all_or_nothing_single",
    "C17_all_or_nothing_redundant",
    "C17_reservation_kept",
    "C17_reservation_kept_single"
   ],
   "note": "For a redundant pair, each of the two queues gets all frames or none."
  },
  {
   "property": "C25",
   "status": "proved",
   "theorems": [
    "C25_queue_refines",
    "C25_stable_priority"
   ],
   "note": ""
  },
  {
   "property": "C26",
   "status": "partial",
   "theorems": [
    "C26_flush_accounts_partial",
    "C26_flush_order",
    "C26_flush_error_refuted"
   ],
   "note": "The code violates the property when the driver reports an error other than WouldBlock: the frame it was offered is lost. Everything else is proved, with at most that one frame missing."
  },
  {
   "property": "C27",
   "status": "proved",
   "theorems": [
    "C27_dedup_decides",
    "C27_dedup_once"
   ],
   "note": ""
  },
  {
   "property": "C18",
   "status": "proved",
   "theorems": [
    "C18_end_to_end",
    "C18_end_to_end_interleaved"
   ],
   "note": "The hypotheses on the session are stated on the history: no pending frame of that source and port with this transfer ID or the next one, and no delivery of the same transfer ID within the timeout."
  },
  {
   "property": "C19",
   "status": "proved",
   "theorems": [
    "C19_no_interference"
   ],
   "note": ""
  },
  {
   "property": "C20",
   "status": "proved",
   "theorems": [
    "C20_no_duplicates"
   ],
   "note": ""
  },
  {
   "property": "C21",
   "status": "proved",
   "theorems": [
    "C21_only_wanted"
   ],
   "note": ""
  },
  {
   "property": "C22",
   "status": "partial",
   "theorems": [
    "C22_payload_limit_partial",
    "C22_anonymous_refuted"
   ],
   "note": "The code violates the property for anonymous transfers, which are not truncated; it is proved for all others."
  },
  {
   "property": "C23",
   "status": "partial",
   "theorems": [
    "C23_no_panic_partial",
    "C23_short_transfer_refuted"
   ],
   "note": "The code violates the property: a multi-frame transfer with fewer than two bytes in all makes payload_size -= 2 underflow. Proved when every start frame of a longer transfer carries at least two bytes."
  },
  {
   "property": "C24",
   "status": "proved",
   "theorems": [
    "C24_intact",
    "C24_single_frame",
    "C24_anonymous"
   ],
   "note": ""
  },
  {
   "property": "C30",
   "status": "proved",
   "theorems": [
    "C30_segmentation"
   ],
   "note": ""
  },
  {
   "property": "C31",
   "status": "partial",
   "theorems": [
    "C31_end_to_end_partial",
    "C31_interleaved_partial",
    "C31_anonymous_partial",
    "C31_short_last_datagram_refuted"
   ],
   "note": "The code violates the property: the receiver ignores datagrams with fewer than 4 bytes after the header, so transfers with (payload+4) mod (MTU-24) in 1..3 are lost. Proved for all transfers whose datagrams have at least 28 bytes, interleaved with any other traffic."
  },
  {
   "property": "C32",
   "status": "proved",
   "theorems": [
    "C32_intact"
   ],
   "note": ""
  },
  {
   "property": "C33",
   "status": "partial",
   "theorems": [
    "C33_no_duplicates_partial",
    "C33_duplicate_refuted",
    "C33_forgotten_refuted"
   ],
   "note": "The code violates the property when a transfer is incomplete: the first frame of it decides the recorded transfer ID. Proved when only the same or lower IDs follow and the delivered transfer was not mixed with another."
  },
  {
   "property": "C34",
   "status": "partial",
   "theorems": [
    "C34_recovery_partial",
    "C34_recovery_refuted",
    "C34_permanent_loss_refuted"
   ],
   "note": "The code violates the property for transfers of several datagrams; transfers of two datagrams are never delivered again after one loss (proved for every number of them). Proved for single-datagram transfers."
  },
  {
   "property": "C35",
   "status": "partial",
   "theorems": [
    "C35_only_wanted_partial",
    "C35_destination_refuted"
   ],
   "note": "The code does not check the destination of service transfers; that deliveries match an active subscription is proved."
  },
  {
   "property": "C36",
   "status": "proved",
   "theorems": [
    "C36_round_trip",
    "C36_injective",
    "C36_decode"
   ],
   "note": ""
  },
  {
   "property": "C37",
   "status": "partial",
   "theorems": [
    "C37_no_panic_partial",
    "C37_silence_refuted"
   ],
   "note": "The code panics if a source is silent for more than 2^31 microseconds; proved that it never panics otherwise."
  },
  {
   "property": "C55",
   "status": "proved",
   "theorems": [
    "C55_push"
   ],
   "note": ""
  },
  {
   "property": "C56",
   "status": "proved",
   "theorems": [
    "C56_no_interference"
   ],
   "note": ""
  },
  {
   "property": "C57",
   "status": "partial",
   "theorems": [
    "C57_subject_group",
    "C57_service_group_partial",
    "C57_set_id_refuted"
   ],
   "note": "Proved for subjects; for services while the node ID is not changed. Changing it leaves the socket in the old group."
  },
  {
   "property": "C58",
   "status": "proved",
   "theorems": [
    "C58_receive"
   ],
   "note": ""
  },
  {
   "property": "C38",
   "status": "proved",
   "theorems": [
    "C38_pack",
    "C38_space",
    "C38_prefix",
    "C38_round_trip",
    "C38_fields"
   ],
   "note": "Floating point values are their bit patterns; the conversions of the half crate are not modelled."
  },
  {
   "property": "C39",
   "status": "proved",
   "theorems": [
    "C39_zero_extension",
    "C39_padding"
   ],
   "note": ""
  },
  {
   "property": "C40",
   "status": "proved",
   "theorems": [
    "C40_delimited",
    "C40_sealed",
    "C40_versions"
   ],
   "note": ""
  },
  {
   "property": "C41",
   "status": "partial",
   "theorems": [
    "C41_bits",
    "C41_cursor_partial",
    "C41_cursor_refuted",
    "C41_refuted"
   ],
   "note": "The bits always round-trip. The cursor ends too far when a partially filled array of a multiple of 8 bits starts at a byte boundary, so fields after it are misread; proved in all other cases."
  },
  {
   "property": "C59",
   "status": "partial",
   "theorems": [
    "C59_aligned_partial",
    "C59_bytes_refuted"
   ],
   "note": "write_aligned_bytes does not check the alignment and overwrites earlier bits; proved for the other operations."
  },
  {
   "property": "C60",
   "status": "proved",
   "theorems": [
    "C60_get_set",
    "C60_new_fill",
    "C60_eq",
    "C60_compare",
    "C60_order"
   ],
   "note": ""
  },
  {
   "property": "C42",
   "status": "proved",
   "theorems": [
    "C42_bounds",
    "C42_fixed_size",
    "C42_overflow"
   ],
   "note": ""
  },
  {
   "property": "C43",
   "status": "partial",
   "theorems": [
    "C43_remainder_partial",
    "C43_aligned_partial",
    "C43_byte_aligned_partial",
    "C43_refuted"
   ],
   "note": "The code violates the property for a padded set when neither the alignment nor the divisor divides the other: 9 bits padded to 8 are 16 bits, but the remainder modulo 3 is calculated as 0. Proved for expressions all of whose alignments divide the divisor or are multiples of it, and divisors up to 2^31."
  },
  {
   "property": "C44",
   "status": "proved",
   "theorems": [
    "C44_constructors",
    "C44_expand",
    "C44_equality",
    "C44_padding"
   ],
   "note": ""
  },
  {
   "property": "C61",
   "status": "proved",
   "theorems": [
    "C61_order",
    "C61_transitive"
   ],
   "note": ""
  },
  {
   "property": "C62",
   "status": "partial",
   "theorems": [
    "C62_validate_partial",
    "C62_refuted"
   ],
   "note": "The check panics for padded sets because of the wrong remainder (C43). Proved for expressions without padding."
  },
  {
   "property": "C45",
   "status": "proved",
   "theorems": [
    "C45_publish",
    "C45_no_other_message"
   ],
   "note": "The k-th message given to the transmitter; a publish that finds no memory for its payload gives it none."
  },
  {
   "property": "C46",
   "status": "proved",
   "theorems": [
    "C46_send_request",
    "C46_no_other_request"
   ],
   "note": "For the CAN tracker and for trackers of any fixed capacity."
  },
  {
   "property": "C47",
   "status": "proved",
   "theorems": [
    "C47_response"
   ],
   "note": "For a node with an ID; the code panics without one, as documented."
  },
  {
   "property": "C48",
   "status": "proved",
   "theorems": [
    "C48_chain"
   ],
   "note": ""
  },
  {
   "property": "C49",
   "status": "proved",
   "theorems": [
    "C49_start_publishing",
    "C49_start_sending_requests",
    "C49_ports"
   ],
   "note": ""
  },
  {
   "property": "C63",
   "status": "proved",
   "theorems": [
    "C63_receive"
   ],
   "note": ""
  },
  {
   "property": "C64",
   "status": "partial",
   "theorems": [
    "C64_subscribed_partial",
    "C64_unsubscribe_refuted"
   ],
   "note": "The code violates the second half: stop_sending_requests leaves the subscription to responses in the receiver. Proved: while requests can be sent, the subscription is there."
  },
  {
   "property": "C65",
   "status": "proved",
   "theorems": [
    "C65_anonymous"
   ],
   "note": ""
  },
  {
   "property": "C66",
   "status": "partial",
   "theorems": [
    "C66_encoding_partial",
    "C66_unaligned_refuted",
    "C66_zero_copy_refuted",
    "C66_tag_refuted"
   ],
   "note": "The code violates it for variable-length arrays of composites at unaligned positions, zero-copy structs with delimited types in them, and unions with exactly 256 or 65536 variants. Proved for all other types and all values (the predicate good in GenSpec.v, which is computed from the type)."
  },
  {
   "property": "C67",
   "status": "partial",
   "theorems": [
    "C67_size_partial",
    "C67_no_panic_partial",
    "C67_padding_refuted",
    "C67_headers_refuted"
   ],
   "note": "The code violates it: alignment padding before composites is not counted, nor are delimiter headers in arrays of fixed-length composites and in unions. Proved for all other types (good) and all values."
  },
  {
   "property": "C68",
   "status": "partial",
   "theorems": [
    "C68_round_trip_partial",
    "C68_negative_refuted",
    "C68_bools_refuted",
    "C68_padding_refuted"
   ],
   "note": "The code violates it for negative integers of other widths than 8, 16, 32, 64, for variable-length arrays of booleans with a multiple of 8 elements, and for nested structs that end with padding. Proved for all other types and values."
  },
  {
   "property": "C69",
   "status": "partial",
   "theorems": [
    "C69_total_partial",
    "C69_bools_refuted",
    "C69_bools_bound_refuted"
   ],
   "note": "The code violates it: lengths of arrays of booleans are not checked. Proved for all types whose variable-length arrays of booleans have the greatest length of their prefix, and all bytes."
  },
  {
   "property": "C70",
   "status": "partial",
   "theorems": [
    "C70_length_partial",
    "C70_tag_partial",
    "C70_negative_refuted"
   ],
   "note": "The code violates it for arrays of booleans and for lengths of 2^31 and more. Proved for arrays of less than 65536 elements behind fields of fixed width, and for the tags of all unions but those with 256 or 65536 variants."
  },
  {
   "property": "C71",
   "status": "partial",
   "theorems": [
    "C71_lengths_partial",
    "C71_headers_refuted",
    "C71_union_refuted"
   ],
   "note": "The code violates it: delimiter headers of array elements and union variants, and length prefixes of union variants, are not counted. Proved for all other types."
  },
  {
   "property": "C72",
   "status": "partial",
   "theorems": [
    "C72_zero_extension_partial",
    "C72_delimited_refuted"
   ],
   "note": "Proved for types without delimited types in them; inside a delimited type missing bytes are an error."
  },
  {
   "property": "C50",
   "status": "partial",
   "theorems": [
    "C50_port_list_partial",
    "C50_history",
    "C50_no_panic",
    "C50_inner_refuted",
    "C50_before_refuted"
   ],
   "note": "The code violates it: ports started by handlers, through node_mut, or before the basic node was created are missing. Proved for every history in which all ports are started and stopped through the basic node."
  },
  {
   "property": "C73",
   "status": "proved",
   "theorems": [
    "C73_heartbeat",
    "C73_started"
   ],
   "note": ""
  },
  {
   "property": "C74",
   "status": "partial",
   "theorems": [
    "C74_period_partial",
    "C74_blocked_refuted"
   ],
   "note": "The code violates it: calls whose heartbeat is not accepted do not count, and the first list comes with the 11th call. Proved exactly when lists are published, in terms of accepted heartbeats."
  },
  {
   "property": "C75",
   "status": "proved",
   "theorems": [
    "C75_get_info",
    "C75_others"
   ],
   "note": ""
  },
  {
   "property": "C76",
   "status": "partial",
   "theorems": [
    "C76_service_partial",
    "C76_panic_refuted"
   ],
   "note": "The code violates it: more than 255 subjects make it panic. Proved for up to 255."
  },
  {
   "property": "C77",
   "status": "proved",
   "theorems": [
    "C77_set_node_id",
    "C77_keeps"
   ],
   "note": ""
  },
  {
   "property": "C51",
   "status": "partial",
   "theorems": [
    "C51_access",
    "C51_history",
    "C51_immutable",
    "C51_servers",
    "C51_request_partial",
    "C51_others",
    "C51_utf8",
    "C78_request_refuted"
   ],
   "note": "Every request that is completed obeys it, for both servers and all histories. Missing: requests with more than 2048 booleans, which crash the node (C78)."
  },
  {
   "property": "C78",
   "status": "partial",
   "theorems": [
    "C78_no_panic_partial",
    "C78_request_refuted",
    "C78_bools_refuted"
   ],
   "note": "The code violates it: a request of 5 bytes announcing 2049 booleans panics, for any registers; so does reading a register with more than 2048 booleans. Proved: these are the only requests that do, if the registers fit in a response and names have at most 255 bytes."
  },
  {
   "property": "C79",
   "status": "partial",
   "theorems": [
    "C79_list_partial",
    "C79_long_name_refuted",
    "C79_long_names_refuted"
   ],
   "note": "The code violates it: a name of 256 bytes, which is documented as valid, panics. Proved for names of up to 255 bytes and any implementation of registers."
  },
  {
   "property": "C80",
   "status": "partial",
   "theorems": [
    "C80_write_back_partial",
    "C80_long_refuted"
   ],
   "note": "The code violates it for arrays of numbers that exceed 256 bytes. Proved for all others."
  },
  {
   "property": "C52",
   "status": "partial",
   "theorems": [
    "C52_answer",
    "C52_assigned_partial",
    "C52_fresh_refuted",
    "C52_overwrite_refuted",
    "C52_unstable_refuted"
   ],
   "note": "The code violates it: a new server gives node ID 0 to every node, gives away a node ID that was assigned, and changes its answers. Proved: what it answers exactly, and that the property holds while every node that asks or is heard was assigned a node ID by the application."
  },
  {
   "property": "C81",
   "status": "partial",
   "theorems": [
    "C81_no_panic_partial",
    "C81_greatest_id_refuted",
    "C81_assignments"
   ],
   "note": "The code violates it: a heartbeat from, or an assignment of, the greatest node ID (127 with CAN) panics. Proved: nothing else does."
  },
  {
   "property": "C82",
   "status": "partial",
   "theorems": [
    "C82_client_partial",
    "C82_own_request_refuted",
    "C82_request_1"
   ],
   "note": "The code violates it: a version 2 client takes node ID 0 from its own request, whatever the source and subject. Proved: it takes a node ID exactly from messages that name it and a node ID; version 1 requests are never taken for answers."
  },
  {
   "property": "C83",
   "status": "proved",
   "theorems": [
    "C83_exchange"
   ],
   "note": ""
  },
  {
   "property": "C84",
   "status": "partial",
   "theorems": [
    "C84_client_partial",
    "C84_classic_can_refuted",
    "C84_leak_refuted",
    "C84_server"
   ],
   "note": "The code violates it: with debug assertions a version 1 client panics on Classic CAN, and a failed creation leaves a subscription behind. Proved otherwise."
  },
  {
   "property": "C85",
   "status": "partial",
   "theorems": [
    "C85_send_partial",
    "C85_requests_partial",
    "C85_busy_refuted",
    "C85_receive"
   ],
   "note": "The code violates it: the client panics when the transmitter does not take the transfer at once. Proved otherwise."
  },
  {
   "property": "C86",
   "status": "proved",
   "theorems": [
    "C86_crc16",
    "C86_crc32c",
    "C86_crc64we",
    "C86_unique"
   ],
   "note": "CRC-64/WE is a third-party crate, written out in the model."
  },
  {
   "property": "C87",
   "status": "partial",
   "theorems": [
    "C87_integer",
    "C87_point_partial",
    "C87_exponent_partial",
    "C87_underscore_refuted",
    "C87_leading_point_refuted"
   ],
   "note": "The code violates it: underscores behind the point scale the number, and literals that start with a point are refused. Proved for all others."
  },
  {
   "property": "C88",
   "status": "partial",
   "theorems": [
    "C88_strings_partial",
    "C88_accepts",
    "C88_plus_refuted",
    "C88_display"
   ],
   "note": "The code violates it: a plus sign is taken in place of the first digit of a Unicode escape sequence. Proved for text without plus signs."
  },
  {
   "property": "C89",
   "status": "partial",
   "theorems": [
    "C89_numbers",
    "C89_bitwise",
    "C89_comparisons",
    "C89_strings",
    "C89_elementwise",
    "C89_elementwise_right",
    "C89_remainders_partial",
    "C89_remainders_refuted",
    "C89_set_operators_partial",
    "C89_set_operators_refuted",
    "C89_set_comparisons",
    "C89_attributes_partial",
    "C89_count",
    "C89_attributes_refuted",
    "C89_expressions",
    "C89_set_literals",
    "C89_offset_assertion_partial"
   ],
   "note": "The code violates it: sets of bit lengths do not combine with other sets of numbers, remainders of padded lengths can be wrong, and the minimum of a set of sets is not one. Proved otherwise, for sets of numbers, strings or booleans; sets of sets and of types, and powers that are not integers, are not covered."
  },
  {
   "property": "C90",
   "status": "partial",
   "theorems": [
    "C90_careful_partial",
    "C90_no_panic_partial",
    "C90_no_panic_refuted",
    "C90_careless_refuted"
   ],
   "note": "The code violates it: division by zero, a negative power of zero and lengths of more than 64 bits panic. Proved for all expressions whose operations do none of these when they are evaluated (and divide lengths by at most 2^31); those of numbers that do always panic."
  },
  {
   "property": "C91",
   "status": "partial",
   "theorems": [
    "C91_constants_partial",
    "C91_floats_partial"
   ],
   "note": "Complete for booleans, integers and characters. The conversion to floating point is third-party and a parameter."
  },
  {
   "property": "C92",
   "status": "proved",
   "theorems": [
    "C92_identifiers",
    "C92_reserved",
    "C92_case"
   ],
   "note": "For ASCII letters and digits; the pattern also matches digits and letters of other scripts, which are no identifiers."
  },
  {
   "property": "C93",
   "status": "proved",
   "theorems": [
    "C93_keys",
    "C93_round_trip",
    "C93_injective",
    "C93_file_names"
   ],
   "note": ""
  },
  {
   "property": "C94",
   "status": "proved",
   "theorems": [
    "C94_accepted",
    "C94_effect",
    "C94_package",
    "C94_directories"
   ],
   "note": "Reading directories is not modelled."
  },
  {
   "property": "C95",
   "status": "partial",
   "theorems": [
    "C95_ends",
    "C95_once_partial",
    "C95_case_refuted"
   ],
   "note": "Names agree except for case: a reference in the wrong case changes the name in the result, or is an error, depending on the order of files."
  },
  {
   "property": "C96",
   "status": "proved",
   "theorems": [
    "C96_embedded",
    "C96_acyclic"
   ],
   "note": ""
  },
  {
   "property": "C97",
   "status": "proved",
   "theorems": [
    "C97_deprecated"
   ],
   "note": ""
  },
  {
   "property": "C98",
   "status": "proved",
   "theorems": [
    "C98_declared"
   ],
   "note": "Values of expressions are stated for arithmetic expressions (C89); constants of floating point types have the value that the conversion, a parameter, gives."
  },
  {
   "property": "C99",
   "status": "partial",
   "theorems": [
    "C99_lengths_partial",
    "C99_values_partial",
    "C99_flags",
    "C99_aligned",
    "C99_request_refuted"
   ],
   "note": "Lengths of requests are not padded; lengths of unions and arrays of delimited types as in C71."
  },
  {
   "property": "C100",
   "status": "proved",
   "theorems": [
    "C100_order"
   ],
   "note": "Assertions are covered if they are arithmetic; those about offsets are in C89."
  },
  {
   "property": "C101",
   "status": "partial",
   "theorems": [
    "C101_rules_partial",
    "C101_names_refuted",
    "C101_extent_refuted"
   ],
   "note": "A constant and a field may share a name, field names may be reserved, and extents may be too short."
  },
  {
   "property": "C102",
   "status": "proved",
   "theorems": [
    "C102_accepted"
   ],
   "note": "For expressions built from literals and operators; expressions with _offset_, sets or attributes of types are not covered by the specification of values."
  },
  {
   "property": "C103",
   "status": "proved",
   "theorems": [
    "C103_never_panics",
    "C103_ends"
   ],
   "note": "Stack overflow on deep nesting is outside the model."
  },
  {
   "property": "C104",
   "status": "proved",
   "theorems": [
    "C104_files",
    "C104_unambiguous"
   ],
   "note": "For files in the strict form: names in expressions do not start like a keyword (C108), decimal integers have no leading zeros, fractions are written plainly (C87)."
  },
  {
   "property": "C105",
   "status": "proved",
   "theorems": [
    "C105_accepted"
   ],
   "note": ""
  },
  {
   "property": "C106",
   "status": "proved",
   "theorems": [
    "C106_precedence"
   ],
   "note": ""
  },
  {
   "property": "C107",
   "status": "proved",
   "theorems": [
    "C107_layout"
   ],
   "note": ""
  },
  {
   "property": "C108",
   "status": "partial",
   "theorems": [
    "C108_declared",
    "C108_names_partial",
    "C108_refuted"
   ],
   "note": "Names that start like a primitive type or a truth value can be declared but not used."
  },
  {
   "property": "C109",
   "status": "proved",
   "theorems": [
    "C109_types",
    "C109_files",
    "C109_accepted"
   ],
   "note": "With the limits of C102 and C104."
  },
  {
   "property": "C110",
   "status": "proved",
   "theorems": [
    "C110_generated",
    "C110_references"
   ],
   "note": ""
  },
  {
   "property": "C111",
   "status": "partial",
   "theorems": [
    "C111_types_partial",
    "C111_members_partial",
    "C111_packages_refuted",
    "C111_constants_refuted",
    "C111_members_refuted"
   ],
   "note": "Violated: packages _ and _0; port constants of FooBar and Foo_Bar; variants a_b and aB; fields _ and _0."
  },
  {
   "property": "C112",
   "status": "partial",
   "theorems": [
    "C112_modules_partial",
    "C112_members_partial",
    "C112_refuted"
   ],
   "note": "Violated: keywords of Rust, type names that begin with a digit after underscores, the variants self and __."
  },
  {
   "property": "C113",
   "status": "proved",
   "theorems": [
    "C113_placed",
    "C113_shape",
    "C113_resolves",
    "C113_modules"
   ],
   "note": ""
  },
  {
   "property": "C114",
   "status": "partial",
   "theorems": [
    "C114_constants",
    "C114_values_partial",
    "C114_refuted"
   ],
   "note": "Violated: IDs out of range are accepted and truncated."
  },
  {
   "property": "C115",
   "status": "partial",
   "theorems": [
    "C115_accepted",
    "C115_errors_partial",
    "C115_refuted"
   ],
   "note": "Violated: a constant from 2^32 makes the generator panic."
  },
  {
   "property": "C116",
   "status": "partial",
   "theorems": [
    "C116_round_trip_partial",
    "C116_wide_refuted",
    "C116_large_refuted"
   ],
   "note": "Violated: fields of more than 32 bits, constants from 2^31."
  },
  {
   "property": "C117",
   "status": "partial",
   "theorems": [
    "C117_no_panic_partial",
    "C117_refuted"
   ],
   "note": "Violated: an extent of 4 GiB; see also C115_refuted."
  },
  {
   "property": "C118",
   "status": "partial",
   "theorems": [
    "C118_derived_partial",
    "C118_refuted"
   ],
   "note": "Violated: a struct with a field whose type is marked as an enum."
  },
  {
   "property": "C119",
   "status": "partial",
   "theorems": [
    "C119_transmit_partial",
    "C119_given_back_refuted"
   ],
   "note": "Violated: a frame that is given back has lost its loopback flag."
  },
  {
   "property": "C120",
   "status": "partial",
   "theorems": [
    "C120_loopback_partial",
    "C120_lost_refuted",
    "C120_unsent_refuted"
   ],
   "note": "Violated: the copy of a third waiting frame is lost; copies of frames that are aborted are received."
  },
  {
   "property": "C121",
   "status": "proved",
   "theorems": [
    "C121_received",
    "C121_would_block"
   ],
   "note": ""
  },
  {
   "property": "C122",
   "status": "proved",
   "theorems": [
    "C122_filters"
   ],
   "note": ""
  },
  {
   "property": "C123",
   "status": "proved",
   "theorems": [
    "C123_queue_and_driver"
   ],
   "note": ""
  },
  {
   "property": "C124",
   "status": "proved",
   "theorems": [
    "C124_flush_ends"
   ],
   "note": ""
  },
  {
   "property": "C125",
   "status": "partial",
   "theorems": [
    "C125_transmit",
    "C125_receive_partial",
    "C125_remote_refuted",
    "C125_filters_partial",
    "C125_filters_refuted",
    "C125_clock"
   ],
   "note": "Violated: remote frames are received as data frames; more than 512 subscriptions, or no memory, cause a panic."
  },
  {
   "property": "C126",
   "status": "partial",
   "theorems": [
    "C126_delivered_partial",
    "C126_addressed_partial",
    "C126_priorities_refuted"
   ],
   "note": "Violated for different priorities on one port: a transfer is lost if a more urgent one on the same port overtakes some of its frames."
  },
  {
   "property": "C127",
   "status": "partial",
   "theorems": [
    "C127_warnings",
    "C127_harmless",
    "C127_suggestions_partial",
    "C127_suggestions_refuted",
    "C127_lowercase_refuted"
   ],
   "note": "Violated: a suggestion can be empty, no identifier, reserved or the name of something else; types in lowercase are not reported."
  },
  {
   "property": "C128",
   "status": "partial",
   "theorems": [
    "C128_same",
    "C128_comments_partial",
    "C128_package_partial",
    "C128_enums_partial",
    "C128_refuted"
   ],
   "note": "Violated: comments after @sealed or @extent in a struct, before the first constant or variant of a union, and after a use of the offset in a union are dropped."
  },
  {
   "property": "C129",
   "status": "partial",
   "theorems": [
    "C129_reported_partial",
    "C129_again",
    "C129_interrupted_partial",
    "C129_finished",
    "C129_big_endian_refuted",
    "C129_interrupted_refuted",
    "C129_other_file_refuted",
    "C129_panic_refuted"
   ],
   "note": "Violated: big-endian targets; images named *.tmp; an existing file with the temporary name; symbols outside of the file."
  },
  {
   "property": "C130",
   "status": "partial",
   "theorems": [
    "C130_encoding_partial",
    "C130_same_bytes_partial",
    "C130_read",
    "C130_round_trip_partial",
    "C130_long_refuted",
    "C130_other_forms_refuted"
   ],
   "note": "Violated: N above 255 (length truncated); lists in the form of a mask and the list of all IDs are refused."
  },
  {
   "property": "C131",
   "status": "partial",
   "theorems": [
    "C131_generates",
    "C131_nothing",
    "C131_no_panic",
    "C131_code_partial",
    "C131_forgotten_refuted",
    "C131_options_refuted"
   ],
   "note": "Violated: without generate nothing is generated and there is no error; options in generate(...) are ignored."
  },
  {
   "property": "C132",
   "status": "partial",
   "theorems": [
    "C132_frames",
    "C132_headers",
    "C132_data",
    "C132_priority",
    "C132_answers",
    "C132_order_partial",
    "C132_hang_refuted",
    "C132_duplicate_refuted",
    "C132_long_refuted"
   ],
   "note": "Violated when a frame beats the one in the buffer: the call never returns, or the frame is given back and transmitted and the new one lost. Frames of more than eight bytes are cut."
  },
  {
   "property": "C133",
   "status": "partial",
   "theorems": [
    "C133_receive_partial",
    "C133_once_partial",
    "C133_node_partial",
    "C133_buffers",
    "C133_capacity",
    "C133_blocks",
    "C133_fifo",
    "C133_timing",
    "C133_long_refuted",
    "C133_remote_refuted"
   ],
   "note": "Violated: a received frame with a data length code over 8 causes a panic; the node gets remote frames as data frames of zeros."
  },
  {
   "property": "C134",
   "status": "partial",
   "theorems": [
    "C134_request_partial",
    "C134_answers",
    "C134_allocated_partial",
    "C134_no_panic_partial",
    "C134_silent_refuted",
    "C134_twice_refuted",
    "C134_short_refuted"
   ],
   "note": "Violated: no request is ever sent, because nothing flushes the queue; each request after the first panics; two frames without data cause a panic."
  },
  {
   "property": "C135",
   "status": "partial",
   "theorems": [
    "C135_table_partial",
    "C135_arguments",
    "C135_zero_refuted"
   ],
   "note": "Proved for at least one filter. Violated for zero filters: success with an empty table."
  },
  {
   "property": "C136",
   "status": "partial",
   "theorems": [
    "C136_generates_partial",
    "C136_created",
    "C136_syntax_partial",
    "C136_syntax_only",
    "C136_written_refuted",
    "C136_external_refuted",
    "C136_format_refuted"
   ],
   "note": "Violated: external packages cannot be given (the values are stored as another type than they are read), rustfmt is always run, errors of the last write are ignored, text behind a second comma is ignored."
  },
  {
   "property": "C137",
   "status": "proved",
   "theorems": [
    "C137_messages",
    "C137_ids",
    "C137_restart_lost",
    "C137_nodes"
   ],
   "note": "C137_nodes: for two whole nodes. C137_ids: the IDs differ when publishing was started once and nothing was refused. C137_restart_lost shows that the condition is needed."
  },
  {
   "property": "C138",
   "status": "proved",
   "theorems": [
    "C138_requests",
    "C138_responses",
    "C138_calls",
    "C138_ids",
    "C138_nodes"
   ],
   "note": "C138_nodes: for two whole nodes. C138_calls is the whole property."
  },
  {
   "property": "C139",
   "status": "partial",
   "theorems": [
    "C139_filters_partial",
    "C139_set_id_refuted"
   ],
   "note": "Violated for services when the node ID is set after the last change of subscriptions: set_id does not apply the filters. Proved for messages always, and for services otherwise."
  },
  {
   "property": "C140",
   "status": "partial",
   "theorems": [
    "C140_no_panic_partial",
    "C140_short_frames_refuted"
   ],
   "note": "Violated: a first and a last frame without payload on a subscribed port make receive panic (C23). Proved when the first frames of transfers of several frames have at least two bytes. The bound of the loop in flush is a part of the model only."
  },
  {
   "property": "C141",
   "status": "partial",
   "theorems": [
    "C141_messages_partial",
    "C141_ids_increase",
    "C141_lost_zero_refuted",
    "C141_restart_refuted"
   ],
   "note": "Violated: a payload with a zero after 254 nonzero bytes is lost (C03), and so are messages after publishing was stopped and started again (the IDs start at 0). Proved without these. Memory for payloads is enough while listening; the link loses no bytes."
  },
  {
   "property": "C142",
   "status": "partial",
   "theorems": [
    "C142_calls_partial",
    "C142_ids_increase"
   ],
   "note": "As C141: no zero lost by the escaping, and the transfer IDs of requests increase (they do when start_sending_requests was called at most once: C142_ids_increase)."
  },
  {
   "property": "C143",
   "status": "proved",
   "theorems": [
    "C143_no_panic"
   ],
   "note": "For all histories of the modelled node."
  },
  {
   "property": "C144",
   "status": "partial",
   "theorems": [
    "C144_messages_partial",
    "C144_ids_increase",
    "C144_short_refuted",
    "C144_late_refuted",
    "C144_restart_refuted"
   ],
   "note": "Violated: a message whose last datagram has less than 28 bytes is lost, publish returns Ok for datagrams that it drops as late, and messages after publishing was stopped and started again are lost (the IDs start at 0). Proved without these, for messages that the socket accepts. Memory is enough while listening; the network keeps the order of the datagrams of the sender on the subject and loses none."
  },
  {
   "property": "C145",
   "status": "partial",
   "theorems": [
    "C145_no_panic_partial",
    "C145_silence_refuted"
   ],
   "note": "Violated: after a silence of more than 2^31 microseconds the next datagram of a session makes the node panic. Proved for all histories in which no reading of the clock counts as earlier than a previous one, and payloads of less than 2^31 datagrams."
  },
  {
   "property": "C146",
   "status": "partial",
   "theorems": [
    "C146_calls_partial",
    "C146_ids_increase"
   ],
   "note": "As C144: datagrams of at least 28 bytes that are sent in time, and transfer IDs of requests that increase (they do when start_sending_requests was called at most once: C146_ids_increase)."
  },
  {
   "property": "C147",
   "status": "partial",
   "theorems": [
    "C147_only_published_partial",
    "C147_short_messages",
    "C147_distinct_ids",
    "C147_tail_refuted"
   ],
   "note": "Violated: when the first datagrams are lost and the rest of the payload happens to have the same CRC as the whole, the rest is delivered as the message (C147_tail_refuted). Proved: a delivered payload is the published one or such a tail of it, from the start of a datagram and of at least two datagrams; so it is the published one for messages of at most two datagrams (C147_short_messages). The transfer IDs on the subject are different (they are when publishing was started at most once: C147_distinct_ids)."
  },
  {
   "property": "C148",
   "status": "partial",
   "theorems": [
    "C148_lost_whole_partial",
    "C148_next_refuted"
   ],
   "note": "Violated: when one datagram of a message is lost, the next message of several datagrams is lost too. Proved for any set of messages that are lost whole; otherwise as C144."
  },
  {
   "property": "C149",
   "status": "partial",
   "theorems": [
    "C149_only_requests_partial",
    "C149_only_responses_partial",
    "C149_distinct_ids"
   ],
   "note": "As C147: a tail of a payload that has the same CRC as the whole may be delivered as the payload. The transfer IDs that the sender used for this service and node differ (those of requests do when start_sending_requests was called at most once: C149_distinct_ids), and all requests of the service have one priority."
  },
  {
   "property": "C150",
   "status": "partial",
   "theorems": [
    "C150_once_partial",
    "C150_several_refuted",
    "C150_late_refuted"
   ],
   "note": "Violated: after a message of several datagrams that is not complete, a doubled datagram of another message is delivered twice (C150_several_refuted). Proved for messages that fit in one datagram. The bound on the readings of the clock is needed: after the timeout a repeated datagram is delivered again (C150_late_refuted)."
  }
 ]
}