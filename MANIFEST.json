{
 "claims": [
  {
   "property": "C01",
   "status": "proved",
   "theorems": [
    "uri_encode_decode_roundtrip",
    "uri_encode_injective"
   ],
   "note": ""
  },
  {
   "property": "C02",
   "status": "proved",
   "theorems": [
    "uri_encode_output_safe"
   ],
   "note": ""
  },
  {
   "property": "C03",
   "status": "proved",
   "theorems": [
    "decode_path_exact",
    "decode_path_defined",
    "pct_decoding_unique"
   ],
   "note": ""
  },
  {
   "property": "C04",
   "status": "proved",
   "theorems": [
    "escape_html_lossless",
    "html_unescape_unique",
    "escape_html_no_markup",
    "escape_html_ampersands"
   ],
   "note": ""
  },
  {
   "property": "C05",
   "status": "proved",
   "theorems": [
    "iequals_is_case_folding",
    "iequals_equivalence",
    "ascii_to_lower_is_lower"
   ],
   "note": ""
  },
  {
   "property": "C06",
   "status": "proved",
   "theorems": [
    "split_view_lossless",
    "split_string_by_lossless",
    "split_string_by_empty_boundary",
    "join_spec"
   ],
   "note": ""
  },
  {
   "property": "C07",
   "status": "proved",
   "theorems": [
    "split_string_tokens",
    "tokens_unique",
    "split_and_trim_exact",
    "trim_exact"
   ],
   "note": ""
  },
  {
   "property": "C08",
   "status": "proved",
   "theorems": [
    "hpack_int_roundtrip",
    "hpack_int_encoding_rfc"
   ],
   "note": ""
  },
  {
   "property": "C09",
   "status": "proved",
   "theorems": [
    "hpack_int_decode_exact",
    "hpack_int_repr_unique"
   ],
   "note": ""
  },
  {
   "property": "C10",
   "status": "proved",
   "theorems": [
    "huffman_roundtrip",
    "huffman_encode_is_rfc"
   ],
   "note": ""
  },
  {
   "property": "C11",
   "status": "proved",
   "theorems": [
    "huffman_decode_canonical",
    "huffman_decode_exact"
   ],
   "note": ""
  },
  {
   "property": "C12",
   "status": "proved",
   "theorems": [
    "huffman_size_exact",
    "string_literal_never_longer"
   ],
   "note": ""
  },
  {
   "property": "C13",
   "status": "proved",
   "theorems": [
    "dynamic_table_is_rfc_fifo",
    "rfc_table_unique"
   ],
   "note": ""
  },
  {
   "property": "C14",
   "status": "proved",
   "theorems": [
    "hpack_connection_roundtrip",
    "hpack_encode_accepts"
   ],
   "note": ""
  },
  {
   "property": "C15",
   "status": "proved",
   "theorems": [
    "sensitive_never_indexed"
   ],
   "note": ""
  },
  {
   "property": "C16",
   "status": "proved",
   "theorems": [
    "decoder_table_within_limit",
    "decoder_total",
    "oversize_update_rejected",
    "late_update_rejected"
   ],
   "note": ""
  },
  {
   "property": "C17",
   "status": "proved",
   "theorems": [
    "hpack_decode_exact"
   ],
   "note": ""
  },
  {
   "property": "C18",
   "status": "proved",
   "theorems": [
    "static_name_lookup",
    "static_exact_lookup"
   ],
   "note": ""
  },
  {
   "property": "C19",
   "status": "partial",
   "theorems": [
    "failed_encode_keeps_state_usable_refuted",
    "failed_encode_keeps_state_usable_partial"
   ],
   "note": "False of the code as stated: a failing encode keeps the insertions of the fields before the bad one; the _refuted theorem is the counterexample, the _partial theorem is what does hold."
  },
  {
   "property": "C20",
   "status": "proved",
   "theorems": [
    "frame_header_layout",
    "frame_header_write",
    "frame_header_reserved_bit"
   ],
   "note": ""
  },
  {
   "property": "C21",
   "status": "proved",
   "theorems": [
    "frames_roundtrip"
   ],
   "note": "Frames as the serializers write them (no padding or priority fields); a block must not end in an empty CONTINUATION, see C23."
  },
  {
   "property": "C22",
   "status": "partial",
   "theorems": [
    "payload_parse_exact",
    "unknown_type_ignored",
    "data_accounts_for_payload",
    "framer_in_bounds",
    "empty_payload_exact_partial",
    "empty_padded_frame_accepted_refuted"
   ],
   "note": "Bounds and exactness are proved for every non-empty payload; an empty DATA/HEADERS frame with PADDED or PRIORITY set is accepted instead of refused (the _refuted theorem)."
  },
  {
   "property": "C23",
   "status": "partial",
   "theorems": [
    "no_interleaving_partial",
    "interleaving_is_connection_error",
    "empty_headers_interleaved_refuted",
    "empty_continuation_poisons_refuted"
   ],
   "note": "False of the code for a block opened by an empty HEADERS frame (refuted); proved for every other octet sequence and endpoint behaviour."
  },
  {
   "property": "C24",
   "status": "proved",
   "theorems": [
    "settings_validation",
    "settings_unknown_accepted",
    "peer_max_frame_size_safe"
   ],
   "note": ""
  },
  {
   "property": "C25",
   "status": "proved",
   "theorems": [
    "content_length_exact"
   ],
   "note": ""
  },
  {
   "property": "C26",
   "status": "proved",
   "theorems": [
    "header_field_valid_exact",
    "header_field_no_injection",
    "connection_headers_forbidden",
    "te_only_trailers",
    "pseudo_order_exact",
    "request_pseudo_exact",
    "response_pseudo_exact"
   ],
   "note": ""
  },
  {
   "property": "C27",
   "status": "proved",
   "theorems": [
    "stream_state_exact",
    "closed_stream_never_reopens"
   ],
   "note": ""
  },
  {
   "property": "C28",
   "status": "partial",
   "theorems": [
    "window_change_exact_partial",
    "window_growth_overflow_refused",
    "shrinking_window_rejected_refuted",
    "negative_window_rejected_refuted",
    "minus_one_window_rejected_refuted"
   ],
   "note": "False of Http2StreamBase::update_peer_window_size when the window shrinks (three _refuted theorems); exact where the helper's guard does not misfire."
  },
  {
   "property": "C29",
   "status": "partial",
   "theorems": [
    "window_update_exact",
    "window_update_bounded",
    "window_update_sentinel_refuted"
   ],
   "note": "Exact for non-negative windows; for negative windows the -1 sentinel is ambiguous."
  },
  {
   "property": "C30",
   "status": "proved",
   "theorems": [
    "chunking_irrelevant",
    "octet_by_octet"
   ],
   "note": ""
  },
  {
   "property": "C31",
   "status": "proved",
   "theorems": [
    "send_headers_legal",
    "send_headers_delivered"
   ],
   "note": ""
  },
  {
   "property": "C32",
   "status": "proved",
   "theorems": [
    "server_no_undefined_behaviour"
   ],
   "note": "Over the model's ub flag, set wherever the code would dereference an absent stream or read past a buffer; memory reuse inside qb-io is not modelled."
  },
  {
   "property": "C33",
   "status": "proved",
   "theorems": [
    "server_connection_receive_window",
    "server_window_replenished_refuted"
   ],
   "note": "The window can stay exhausted: see the refutation."
  },
  {
   "property": "C34",
   "status": "proved",
   "theorems": [
    "server_stream_receive_window"
   ],
   "note": ""
  },
  {
   "property": "C35",
   "status": "proved",
   "theorems": [
    "server_connection_send_window"
   ],
   "note": ""
  },
  {
   "property": "C36",
   "status": "proved",
   "theorems": [
    "server_respects_peer_settings"
   ],
   "note": ""
  },
  {
   "property": "C37",
   "status": "partial",
   "theorems": [
    "server_stream_send_window_partial",
    "server_stream_send_window_refuted"
   ],
   "note": "Proved for streams opened after the peer's last SETTINGS; the full claim is false of the code (server.h:2112 skips HALF_CLOSED_REMOTE streams), shown by the refutation."
  },
  {
   "property": "C38",
   "status": "proved",
   "theorems": [
    "server_response_transmission",
    "server_two_responses_refuted"
   ],
   "note": "For streams answered once; two answers on one stream are mixed (refutation). The octets of the HPACK block are related to the response by C10-C19."
  },
  {
   "property": "C39",
   "status": "proved",
   "theorems": [
    "server_delivers_complete_requests"
   ],
   "note": ""
  },
  {
   "property": "C40",
   "status": "proved",
   "theorems": [
    "server_concurrency_bound"
   ],
   "note": ""
  },
  {
   "property": "C41",
   "status": "proved",
   "theorems": [
    "server_control_reply_bound"
   ],
   "note": ""
  },
  {
   "property": "C42",
   "status": "proved",
   "theorems": [
    "server_header_block_bound"
   ],
   "note": ""
  },
  {
   "property": "C43",
   "status": "proved",
   "theorems": [
    "server_rapid_reset_bound"
   ],
   "note": ""
  },
  {
   "property": "C44",
   "status": "proved",
   "theorems": [
    "server_single_goaway"
   ],
   "note": ""
  },
  {
   "property": "C45",
   "status": "proved",
   "theorems": [
    "server_silent_after_own_reset",
    "server_silent_after_peer_reset",
    "server_silent_after_throw_refuted"
   ],
   "note": "The hypothesis that handlers do not throw is necessary (refutation)."
  },
  {
   "property": "C46",
   "status": "proved",
   "theorems": [
    "server_cleanup_spares_young_streams",
    "server_cleanup_resets_active_stream_refuted"
   ],
   "note": "Age, not inactivity, is what counts (refutation)."
  },
  {
   "property": "C47",
   "status": "proved",
   "theorems": [
    "ws_session_exact"
   ],
   "note": "Masks are any 4 octets; the application's error handler is assumed not to throw (inside a noexcept function that would terminate the process)."
  },
  {
   "property": "C48",
   "status": "proved",
   "theorems": [
    "ws_legal_accepted"
   ],
   "note": ""
  },
  {
   "property": "C49",
   "status": "proved",
   "theorems": [
    "ws_chunking"
   ],
   "note": ""
  },
  {
   "property": "C50",
   "status": "proved",
   "theorems": [
    "ws_stopped"
   ],
   "note": ""
  },
  {
   "property": "C51",
   "status": "proved",
   "theorems": [
    "ws_buffer_bounded"
   ],
   "note": ""
  },
  {
   "property": "C52",
   "status": "proved",
   "theorems": [
    "ws_close_message"
   ],
   "note": ""
  },
  {
   "property": "C53",
   "status": "proved",
   "theorems": [
    "ws_round_trip"
   ],
   "note": ""
  },
  {
   "property": "C54",
   "status": "proved",
   "theorems": [
    "ws_server_handshake"
   ],
   "note": "SHA-1 and base64 are parameters."
  },
  {
   "property": "C55",
   "status": "proved",
   "theorems": [
    "ws_client_handshake",
    "ws_handshake_agrees",
    "ws_subprotocol"
   ],
   "note": "SHA-1 and base64 are parameters."
  },
  {
   "property": "C56",
   "status": "proved",
   "theorems": [
    "match_serves",
    "match_none",
    "pmatch_captures_unique"
   ],
   "note": ""
  },
  {
   "property": "C57",
   "status": "proved",
   "theorems": [
    "registration_exact",
    "rejected_registration_keeps_names_refuted"
   ],
   "note": "After a rejected call the acceptance test may also refuse names that clash with the rejected route's prefix (the refutation); matching is unaffected."
  },
  {
   "property": "C58",
   "status": "proved",
   "theorems": [
    "allowed_methods_exact"
   ],
   "note": ""
  },
  {
   "property": "C59",
   "status": "proved",
   "theorems": [
    "router_decision"
   ],
   "note": ""
  },
  {
   "property": "C60",
   "status": "proved",
   "theorems": [
    "declarations_registered",
    "declarations_accepted"
   ],
   "note": ""
  },
  {
   "property": "C61",
   "status": "proved",
   "theorems": [
    "context_one_response"
   ],
   "note": ""
  },
  {
   "property": "C62",
   "status": "proved",
   "theorems": [
    "context_quiet_after_end"
   ],
   "note": ""
  },
  {
   "property": "C63",
   "status": "proved",
   "theorems": [
    "context_end_not_lost"
   ],
   "note": ""
  },
  {
   "property": "C64",
   "status": "proved",
   "theorems": [
    "context_task_order",
    "context_task_order_refuted"
   ],
   "note": "The hypothesis that no task runs before routing is necessary: a PRE_ROUTING hook reporting ERROR starts the error chain and the route's chain is started on top of it (refutation)."
  },
  {
   "property": "C65",
   "status": "proved",
   "theorems": [
    "context_cancel_target"
   ],
   "note": ""
  },
  {
   "property": "C66",
   "status": "proved",
   "theorems": [
    "context_simple_chain"
   ],
   "note": ""
  },
  {
   "property": "C67",
   "status": "proved",
   "theorems": [
    "rate_limit_bound"
   ],
   "note": "Times are nanoseconds of a steady clock; single-threaded listener as the code assumes."
  },
  {
   "property": "C68",
   "status": "proved",
   "theorems": [
    "rate_limit_refusals",
    "rate_limit_memory",
    "rate_limit_long_id"
   ],
   "note": ""
  },
  {
   "property": "C69",
   "status": "proved",
   "theorems": [
    "client_id_peer",
    "client_id_forwarded",
    "client_id_proxy_header"
   ],
   "note": "A custom extractor is user code and not modelled."
  },
  {
   "property": "C70",
   "status": "proved",
   "theorems": [
    "static_range_exact"
   ],
   "note": ""
  },
  {
   "property": "C71",
   "status": "proved",
   "theorems": [
    "static_if_none_match"
   ],
   "note": ""
  },
  {
   "property": "C72",
   "status": "proved",
   "theorems": [
    "static_contained",
    "static_contained_refuted"
   ],
   "note": "Proved with the exception the code has (index file that is a link); the unconditional claim is refuted. The file system model has no concurrent changes and no permissions; POSIX/libstdc++ path functions are modelled."
  },
  {
   "property": "C73",
   "status": "proved",
   "theorems": [
    "static_no_links",
    "static_no_links_refuted"
   ],
   "note": "For paths without dot-dot elements; the unconditional claim is refuted."
  },
  {
   "property": "C74",
   "status": "proved",
   "theorems": [
    "static_response",
    "static_head"
   ],
   "note": "Content-Type and Cache-Control not modelled; I/O errors not modelled."
  },
  {
   "property": "C75",
   "status": "proved",
   "theorems": [
    "static_conditional",
    "static_precedence_refuted"
   ],
   "note": "The If-Modified-Since value is taken as parsed."
  },
  {
   "property": "C76",
   "status": "proved",
   "theorems": [
    "static_prefix"
   ],
   "note": ""
  },
  {
   "property": "C77",
   "status": "proved",
   "theorems": [
    "date_format",
    "date_roundtrip",
    "date_total",
    "date_unique",
    "date_roundtrip_small_years_refuted"
   ],
   "note": "qb core's safe_timegm/safe_gmtime are modelled as the Gregorian calendar; the specification counts days one by one from 1970-01-01. The refutation covers years below 1000."
  },
  {
   "property": "C78",
   "status": "proved",
   "theorems": [
    "date_parse_safe",
    "date_parse_sound",
    "date_parse_imf",
    "date_parse_rfc850",
    "date_parse_asctime",
    "date_parse_strict_refuted"
   ],
   "note": "Same calendar assumption. The parser is more lenient than the grammar; that limit is a proved refutation."
  },
  {
   "property": "C79",
   "status": "proved",
   "theorems": [
    "cookie_header_exact"
   ],
   "note": "The icase map of qb core is modelled as an insertion-ordered list with case-insensitive keys."
  },
  {
   "property": "C80",
   "status": "proved",
   "theorems": [
    "cookie_parse_bounds",
    "cookie_value_clean_refuted",
    "cookie_apostrophe_refuted",
    "cookie_case_refuted"
   ],
   "note": "Three limits are proved refutations."
  },
  {
   "property": "C81",
   "status": "proved",
   "theorems": [
    "set_cookie_refuses",
    "set_cookie_no_control",
    "set_cookie_roundtrip",
    "set_cookie_exact"
   ],
   "note": "qb::to_number<int> (qb core) modelled as documented at the call site; Expires restricted to years 1000-9999 (see C77)."
  },
  {
   "property": "C82",
   "status": "proved",
   "theorems": [
    "cookie_jar_history"
   ],
   "note": ""
  },
  {
   "property": "C83",
   "status": "proved",
   "theorems": [
    "http1_request_wire",
    "http1_request_unique",
    "http1_empty_chunked_request_refuted",
    "http1_target_injection_refuted"
   ],
   "note": "Method names (llhttp) and URI text (qb core) are inputs; the two exceptions are proved refutations."
  },
  {
   "property": "C84",
   "status": "proved",
   "theorems": [
    "http1_request_accepts",
    "http1_response_accepts",
    "http1_request_refused",
    "http1_refusal_loses_queue_refuted"
   ],
   "note": "Header maps with at least one value per name; statuses 100-999."
  },
  {
   "property": "C85",
   "status": "proved",
   "theorems": [
    "http1_response_wire",
    "http1_response_unique",
    "http1_missing_body_refuted"
   ],
   "note": "HEAD and CONNECT responses are outside the reader; the excluded cases are refuted."
  },
  {
   "property": "C86",
   "status": "proved",
   "theorems": [
    "http1_chunk_stream"
   ],
   "note": ""
  },
  {
   "property": "C87",
   "status": "proved",
   "theorems": [
    "c87_reads_do_not_matter",
    "c87_large_reads_matter"
   ],
   "note": "llhttp is an arbitrary octet-incremental machine reporting at most one body octet per octet; the second theorem shows the 16 MiB bound on reads is needed (the chunk limit is applied to read fragments)."
  },
  {
   "property": "C88",
   "status": "proved",
   "theorems": [
    "c88_limits"
   ],
   "note": "For every machine in the place of llhttp, all reads of at most 16 MiB, at any time including connection close."
  },
  {
   "property": "C89",
   "status": "partial",
   "theorems": [
    "c89_framing_fields_partial",
    "c89_framing_fields_refuted",
    "c89_trailers_become_headers"
   ],
   "note": "Proved for messages without trailer section; the full statement is refuted: trailer fields are entered into headers() after the checks (all but the last, which is lost)."
  },
  {
   "property": "C90",
   "status": "proved",
   "theorems": [
    "c90_length",
    "c90_chunked",
    "c90_no_body",
    "c90_until_close",
    "c90_pipelined"
   ],
   "note": "FirstMessage says the stream behind the message is treated as a new connection; c90_pipelined iterates it over any number of messages."
  },
  {
   "property": "C91",
   "status": "proved",
   "theorems": [
    "c91_accepts",
    "c91_lookup",
    "c91_unambiguous",
    "c91_clean"
   ],
   "note": ""
  },
  {
   "property": "C92",
   "status": "proved",
   "theorems": [
    "c92_content_type",
    "c92_container"
   ],
   "note": ""
  },
  {
   "property": "C93",
   "status": "partial",
   "theorems": [
    "c93_first_request",
    "c93_excluded_refuted",
    "c93_preference_refuted"
   ],
   "note": "The choice is fully characterised by c93_first_request; the remaining wishes (exclusions after the wildcard, weights as preferences) are refuted."
  },
  {
   "property": "C94",
   "status": "proved",
   "theorems": [
    "each_request_is_called_back_once",
    "statistics_count_the_requests"
   ],
   "note": ""
  },
  {
   "property": "C95",
   "status": "proved",
   "theorems": [
    "requests_are_written_in_order",
    "one_request_is_in_flight"
   ],
   "note": ""
  },
  {
   "property": "C96",
   "status": "proved",
   "theorems": [
    "held_requests_are_bounded",
    "push_at_the_limit_is_refused"
   ],
   "note": ""
  },
  {
   "property": "C97",
   "status": "proved",
   "theorems": [
    "batch_gets_its_responses",
    "batch_is_called_at_most_once",
    "batch_is_called_when_complete",
    "empty_batch_is_called_at_once"
   ],
   "note": ""
  },
  {
   "property": "C98",
   "status": "proved",
   "theorems": [
    "connect_callback_is_called_at_most_once",
    "connect_then_disconnect_is_never_answered"
   ],
   "note": "The stronger wish that every connect() is answered is refuted by the second theorem."
  },
  {
   "property": "C99",
   "status": "partial",
   "theorems": [
    "response_goes_to_its_request",
    "late_response_goes_to_the_next_request"
   ],
   "note": "Proved if the connection's own timer does not fire and attempts do not finish inside the call that starts them; with the timer it is refuted by a concrete run."
  },
  {
   "property": "C100",
   "status": "proved",
   "theorems": [
    "disconnect_settles_everything"
   ],
   "note": "Connection attempts do not finish inside the call that starts them."
  },
  {
   "property": "C101",
   "status": "partial",
   "theorems": [
    "nothing_is_written_after_announced_close_partial",
    "push_in_the_callback_of_a_closing_response_fails",
    "idle_close_is_ignored"
   ],
   "note": "Proved when calls come from outside callbacks and a closing message answers a request; both exceptions are refuted by concrete runs."
  },
  {
   "property": "C102",
   "status": "partial",
   "theorems": [
    "connection_outlives_its_dispatch_partial",
    "connection_is_destroyed_inside_its_dispatch"
   ],
   "note": "Proved when a transport told to close reports closed only later; otherwise refuted by a concrete run."
  },
  {
   "property": "C103",
   "status": "proved",
   "theorems": [
    "queued_request_times_out",
    "disconnect_and_push_in_a_callback_stalls"
   ],
   "note": "The second theorem shows that the timer is the only thing that ends some requests."
  },
  {
   "property": "C104",
   "status": "proved",
   "theorems": [
    "same_origin_spec",
    "only_own_origin_is_written",
    "other_origin_is_refused"
   ],
   "note": ""
  },
  {
   "property": "C105",
   "status": "proved",
   "theorems": [
    "document_read",
    "document_prefix_read",
    "cutting_is_invisible",
    "end_is_kept_refuted",
    "cutting_never_visible_refuted",
    "close_is_seen_refuted"
   ],
   "note": "The refuted statements mark where the hypotheses are needed: bytes after the end, header lines without a colon, delimiter text inside a part."
  },
  {
   "property": "C106",
   "status": "proved",
   "theorems": [
    "put_then_read",
    "length_announced",
    "empty_reads_back_refuted",
    "values_read_back_refuted",
    "truncated_is_refused_refuted"
   ],
   "note": "The last three show what the hypotheses exclude."
  },
  {
   "property": "C107",
   "status": "proved",
   "theorems": [
    "feed_in_bounds",
    "one_feed_in_bounds",
    "always_in_bounds_refuted"
   ],
   "note": "The unconditional statement (feeding on after the end callback) is refuted by a concrete run."
  },
  {
   "property": "C108",
   "status": "proved",
   "theorems": [
    "as_multipart_limits"
   ],
   "note": ""
  },
  {
   "property": "C109",
   "status": "proved",
   "theorems": [
    "wrong_first_line",
    "error_stays"
   ],
   "note": ""
  },
  {
   "property": "C110",
   "status": "proved",
   "theorems": [
    "boundary_found",
    "boundary_absent"
   ],
   "note": ""
  },
  {
   "property": "C111",
   "status": "proved",
   "theorems": [
    "c111_no_origin",
    "c111_refused",
    "c111_granted",
    "c111_only_allowed"
   ],
   "note": ""
  },
  {
   "property": "C112",
   "status": "proved",
   "theorems": [
    "c112_credentials",
    "c112_never_star",
    "c112_default",
    "c112_secure"
   ],
   "note": "a request whose Origin is literally * gets * back; * in the list with credentials reflects every origin (c112_refuted_star_credentials)"
  },
  {
   "property": "C113",
   "status": "proved",
   "theorems": [
    "c113_vary"
   ],
   "note": ""
  },
  {
   "property": "C114",
   "status": "proved",
   "theorems": [
    "c114_passes",
    "c114_preflight"
   ],
   "note": "a preflight from a refused origin goes on to the handlers (c114_refuted_refused_preflight)"
  },
  {
   "property": "C115",
   "status": "proved",
   "theorems": [
    "c115_headers",
    "c115_unasked"
   ],
   "note": ""
  },
  {
   "property": "C116",
   "status": "proved",
   "theorems": [
    "c116_settings",
    "c116_same",
    "c116_reused"
   ],
   "note": "sequential; the pattern cache is not synchronised between cores"
  },
  {
   "property": "C117",
   "status": "proved",
   "theorems": [
    "c117_demanded",
    "c117_others",
    "c117_hsts",
    "c117_twice"
   ],
   "note": ""
  },
  {
   "property": "C118",
   "status": "proved",
   "theorems": [
    "c118_length",
    "c118_policy",
    "c118_own"
   ],
   "note": "freshness (unpredictability) of the nonce is the random source's; a handler can overwrite it (c118_refuted_overwritten)"
  },
  {
   "property": "C119",
   "status": "proved",
   "theorems": [
    "c119_choice",
    "c119_never_excluded"
   ],
   "note": ""
  },
  {
   "property": "C120",
   "status": "proved",
   "theorems": [
    "c120_compress",
    "c120_hook",
    "c120_applied",
    "c120_skipped"
   ],
   "note": "under the streaming contract in CompSpec; Body::compress alone can cut the output off (c120_refuted_truncated)"
  },
  {
   "property": "C121",
   "status": "proved",
   "theorems": [
    "c121_limit",
    "c121_memory"
   ],
   "note": "c121_limit needs no contract"
  },
  {
   "property": "C122",
   "status": "proved",
   "theorems": [
    "c122_request",
    "c122_errors"
   ],
   "note": "one coding per header; next to a known coding an unknown one is ignored (c122_refuted_unknown)"
  },
  {
   "property": "C123",
   "status": "proved",
   "theorems": [
    "c123_round_trip"
   ],
   "note": ""
  },
  {
   "property": "C124",
   "status": "proved",
   "theorems": [
    "c124_valid",
    "satisfies_schema"
   ],
   "note": "deeper schemas: c124_deep_refuted_reject, c124_deep_refuted_accept; numbers are compared as doubles, lengths are octets"
  },
  {
   "property": "C125",
   "status": "proved",
   "theorems": [
    "c125_errors"
   ],
   "note": ""
  },
  {
   "property": "C126",
   "status": "proved",
   "theorems": [
    "c126_no_throw"
   ],
   "note": "other schemas throw when a value is validated: c126_exclusive_number_refuted, c126_pattern_refuted"
  },
  {
   "property": "C127",
   "status": "proved",
   "theorems": [
    "c127_values",
    "c127_limits"
   ],
   "note": ""
  },
  {
   "property": "C128",
   "status": "proved",
   "theorems": [
    "c128_rule",
    "c128_sanitize",
    "c128_path"
   ],
   "note": ""
  },
  {
   "property": "C129",
   "status": "proved",
   "theorems": [
    "c129_trim",
    "c129_trim_iff",
    "c129_upper",
    "c129_lower",
    "c129_alphanumeric",
    "c129_normalize"
   ],
   "note": ""
  },
  {
   "property": "C130",
   "status": "proved",
   "theorems": [
    "c130_shown",
    "c130_no_markup",
    "c130_exact"
   ],
   "note": ""
  },
  {
   "property": "C131",
   "status": "proved",
   "theorems": [
    "c131_part",
    "c131_plain",
    "c131_tag",
    "c131_unterminated",
    "c131_comment",
    "c131_no_tags"
   ],
   "note": "with << a tag passes, as documented (c131_double_refuted)"
  },
  {
   "property": "C132",
   "status": "proved",
   "theorems": [
    "c132_like",
    "c132_literal"
   ],
   "note": "a backslash re-enables a wildcard: c132_backslash_refuted"
  },
  {
   "property": "C133",
   "status": "proved",
   "theorems": [
    "c133_parse",
    "whole_iff"
   ],
   "note": ""
  },
  {
   "property": "C134",
   "status": "proved",
   "theorems": [
    "c134_request",
    "builtin_honest",
    "type_rule_honest",
    "builtin_holds"
   ],
   "note": "a rule that returns false without adding an error is ignored: c134_silent_rule_refuted"
  },
  {
   "property": "C135",
   "status": "proved",
   "theorems": [
    "c135_no_throw"
   ],
   "note": "a bad pattern throws at request time: c135_pattern_refuted"
  },
  {
   "property": "C136",
   "status": "proved",
   "theorems": [
    "c136_middleware"
   ],
   "note": "an error value that is not UTF-8 makes the middleware throw: c136_escape_refuted"
  },
  {
   "property": "C137",
   "status": "proved",
   "theorems": [
    "c137_values"
   ],
   "note": "errors of the body schema ignore the policy: c137_body_refuted"
  },
  {
   "property": "C138",
   "status": "proved",
   "theorems": [
    "c138_register"
   ],
   "note": ""
  },
  {
   "property": "C139",
   "status": "proved",
   "theorems": [
    "c139_token",
    "c139_no_scheme"
   ],
   "note": ""
  },
  {
   "property": "C140",
   "status": "proved",
   "theorems": [
    "c140_signed",
    "c142_user"
   ],
   "note": "the JWT library is a parameter"
  },
  {
   "property": "C141",
   "status": "proved",
   "theorems": [
    "c141_unsigned",
    "c142_user"
   ],
   "note": "an unsigned token without exp passes the expiry check (c141_no_exp_refuted), an exp from 2^63 on counts as long past (c141_far_exp_refuted)"
  },
  {
   "property": "C142",
   "status": "proved",
   "theorems": [
    "c142_user"
   ],
   "note": "roles after the first non-text item are dropped"
  },
  {
   "property": "C143",
   "status": "proved",
   "theorems": [
    "c143_generated",
    "c143_roundtrip"
   ],
   "note": "the unconditional round trip is false: c143_roundtrip_refuted, c143_numeric_refused (user id 42)"
  },
  {
   "property": "C144",
   "status": "proved",
   "theorems": [
    "c144_any",
    "c144_all"
   ],
   "note": ""
  },
  {
   "property": "C145",
   "status": "proved",
   "theorems": [
    "c145_settings",
    "c145_names",
    "c145_factory"
   ],
   "note": ""
  },
  {
   "property": "C146",
   "status": "proved",
   "theorems": [
    "c146_admitted",
    "c146_forbidden",
    "c146_anonymous",
    "c146_unauthenticated",
    "c146_one"
   ],
   "note": ""
  },
  {
   "property": "C147",
   "status": "proved",
   "theorems": [
    "c147_token"
   ],
   "note": ""
  },
  {
   "property": "C148",
   "status": "proved",
   "theorems": [
    "c148_passes",
    "c148_stops",
    "c148_cases",
    "c149_payload"
   ],
   "note": ""
  },
  {
   "property": "C149",
   "status": "proved",
   "theorems": [
    "c149_payload"
   ],
   "note": ""
  },
  {
   "property": "C150",
   "status": "proved",
   "theorems": [
    "c150_chain",
    "c150_role_key"
   ],
   "note": "a numeric subject is lost between the two (c150_numeric_sub_refuted); roles are not demanded of anonymous requests (c150_optional_roles_refuted); role_auth_middleware accepts tokens made with the empty key (c150_role_forged_refuted)"
  },
  {
   "property": "C151",
   "status": "proved",
   "theorems": [
    "c151_readback",
    "c151_built",
    "coding_ours",
    "c151_empty_name_refuted"
   ],
   "note": "The refuted theorem shows why the empty name is excluded."
  },
  {
   "property": "C152",
   "status": "proved",
   "theorems": [
    "c152_form",
    "c152_read",
    "c152_unique"
   ],
   "note": "Percent decoding is a parameter (qb::io::uri is outside the repository)."
  },
  {
   "property": "C153",
   "status": "proved",
   "theorems": [
    "c153_body"
   ],
   "note": "For any percent coding with the contract Coding that leaves the three parameter names as they are."
  },
  {
   "property": "C154",
   "status": "proved",
   "theorems": [
    "c154_decision",
    "c154_refusal",
    "c154_text_score_refuted"
   ],
   "note": "The refuted theorem: by default a score that is no number is ignored."
  },
  {
   "property": "C155",
   "status": "proved",
   "theorems": [
    "c155_token",
    "c155_asks"
   ],
   "note": "JSON parsing is a parameter."
  },
  {
   "property": "C156",
   "status": "proved",
   "theorems": [
    "c156_passes",
    "c156_stops",
    "c156_settles"
   ],
   "note": "Replies come at most once per verification in the code's client; the theorems also cover repeated ones."
  },
  {
   "property": "C157",
   "status": "proved",
   "theorems": [
    "c157_registered",
    "c157_handled"
   ],
   "note": ""
  },
  {
   "property": "C158",
   "status": "proved",
   "theorems": [
    "c158_transparent",
    "c158_otherwise",
    "c158_skipped",
    "c158_contained",
    "c158_thrown",
    "c158_transform"
   ],
   "note": "Over CtxModel's executions; the predicate does not itself complete the context in the transparency theorems."
  },
  {
   "property": "C159",
   "status": "proved",
   "theorems": [
    "c159_observed",
    "c159_own",
    "c159_shared_name_refuted"
   ],
   "note": "The application keeps away from the timing keys; the refuted theorem: two timing middlewares of the same (default) name share their start."
  },
  {
   "property": "C160",
   "status": "proved",
   "theorems": [
    "client_respects_send_windows"
   ],
   "note": "While the 31-bit stream identifiers last (ids_left); the application does not call send_request_trailers."
  },
  {
   "property": "C161",
   "status": "proved",
   "theorems": [
    "client_header_frames_fit"
   ],
   "note": "Trailers sent by the client are not cut (finding)."
  },
  {
   "property": "C162",
   "status": "proved",
   "theorems": [
    "client_transmits_request"
   ],
   "note": "trailers_call_refuted shows why send_request_trailers is excluded."
  },
  {
   "property": "C163",
   "status": "proved",
   "theorems": [
    "client_tells_at_most_once"
   ],
   "note": "That every request is told is false: every_request_is_told_refuted."
  },
  {
   "property": "C164",
   "status": "proved",
   "theorems": [
    "client_response_faithful"
   ],
   "note": "The :status field may stand anywhere among the pseudo-header fields."
  },
  {
   "property": "C165",
   "status": "proved",
   "theorems": [
    "client_credit_earned",
    "client_stream_window"
   ],
   "note": ""
  },
  {
   "property": "C166",
   "status": "proved",
   "theorems": [
    "client_replies_bounded"
   ],
   "note": ""
  },
  {
   "property": "C167",
   "status": "proved",
   "theorems": [
    "client_header_block_bounded",
    "client_stored_block_bounded"
   ],
   "note": ""
  },
  {
   "property": "C168",
   "status": "proved",
   "theorems": [
    "client_quiet_after_goaway",
    "client_one_goaway"
   ],
   "note": ""
  },
  {
   "property": "C169",
   "status": "proved",
   "theorems": [
    "client_closed_is_inert"
   ],
   "note": ""
  },
  {
   "property": "C170",
   "status": "proved",
   "theorems": [
    "client_fresh_streams"
   ],
   "note": ""
  },
  {
   "property": "C171",
   "status": "proved",
   "theorems": [
    "client_silent_after_reset"
   ],
   "note": ""
  },
  {
   "property": "C172",
   "status": "proved",
   "theorems": [
    "client_no_undefined_behaviour"
   ],
   "note": ""
  },
  {
   "property": "C173",
   "status": "proved",
   "theorems": [
    "client_refuses_push"
   ],
   "note": ""
  },
  {
   "property": "C174",
   "status": "proved",
   "theorems": [
    "client_within_stream_limit",
    "client_open_streams_bounded"
   ],
   "note": ""
  },
  {
   "property": "C175",
   "status": "proved",
   "theorems": [
    "client_open_stream_credited",
    "client_enforces_stream_window"
   ],
   "note": ""
  },
  {
   "property": "C176",
   "status": "proved",
   "theorems": [
    "client_connection_errors",
    "client_rejects_invalid_settings",
    "client_stream_credit_overflow"
   ],
   "note": ""
  },
  {
   "property": "C177",
   "status": "proved",
   "theorems": [
    "client_answers_ping",
    "client_acknowledges_settings"
   ],
   "note": ""
  },
  {
   "property": "C178",
   "status": "proved",
   "theorems": [
    "coro_frames_in_order"
   ],
   "note": ""
  },
  {
   "property": "C179",
   "status": "partial",
   "theorems": [
    "coro_keeping_up_loses_nothing_partial",
    "coro_destroyed_receive_loses_a_frame_refuted"
   ],
   "note": "Proved when no coroutine is destroyed while it waits in receive(); otherwise refuted: the next frame is given to the destroyed awaiter and lost."
  },
  {
   "property": "C180",
   "status": "proved",
   "theorems": [
    "coro_buffer_bounded",
    "coro_lowered_limit_is_exceeded_refuted"
   ],
   "note": "The limit in force itself may be exceeded after it was lowered (the _refuted theorem)."
  },
  {
   "property": "C181",
   "status": "proved",
   "theorems": [
    "coro_one_outcome"
   ],
   "note": ""
  },
  {
   "property": "C182",
   "status": "proved",
   "theorems": [
    "coro_nothing_waits_after_the_end",
    "coro_connect_ends_earlier_calls"
   ],
   "note": ""
  },
  {
   "property": "C183",
   "status": "partial",
   "theorems": [
    "coro_peer_close_answered_partial",
    "coro_peer_close_not_echoed_twice",
    "coro_session_refused_close_silences_refuted",
    "coro_refused_close_blocks_the_next_refuted",
    "coro_close_after_peer_close_refuted"
   ],
   "note": "Proved for the client, and for sessions without a refused close_async(); refuted with one (the peer's Close stays unanswered). A refused close_async() also blocks the next one, and one after the peer's Close sends a second Close (both refuted on both sides)."
  },
  {
   "property": "C184",
   "status": "proved",
   "theorems": [
    "coro_waiting_receive_is_served"
   ],
   "note": ""
  },
  {
   "property": "C185",
   "status": "proved",
   "theorems": [
    "coro_connect_succeeds",
    "coro_close_succeeds",
    "coro_connect_ends_earlier_calls"
   ],
   "note": ""
  },
  {
   "property": "C186",
   "status": "proved",
   "theorems": [
    "coro_no_false_disconnection"
   ],
   "note": ""
  }
 ]
}