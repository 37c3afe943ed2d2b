C01 proved uri_encode_decode_roundtrip uri_encode_injective |
C02 proved uri_encode_output_safe |
C03 proved decode_path_exact decode_path_defined pct_decoding_unique |
C04 proved escape_html_lossless html_unescape_unique escape_html_no_markup escape_html_ampersands |
C05 proved iequals_is_case_folding iequals_equivalence ascii_to_lower_is_lower |
C06 proved split_view_lossless split_string_by_lossless split_string_by_empty_boundary join_spec |
C07 proved split_string_tokens tokens_unique split_and_trim_exact trim_exact |
C08 proved hpack_int_roundtrip hpack_int_encoding_rfc |
C09 proved hpack_int_decode_exact hpack_int_repr_unique |
C10 proved huffman_roundtrip huffman_encode_is_rfc |
C11 proved huffman_decode_canonical huffman_decode_exact |
C12 proved huffman_size_exact string_literal_never_longer |
C13 proved dynamic_table_is_rfc_fifo rfc_table_unique |
C14 proved hpack_connection_roundtrip hpack_encode_accepts |
C15 proved sensitive_never_indexed |
C16 proved decoder_table_within_limit decoder_total oversize_update_rejected late_update_rejected |
C17 proved hpack_decode_exact |
C18 proved static_name_lookup static_exact_lookup |
C19 partial failed_encode_keeps_state_usable_refuted failed_encode_keeps_state_usable_partial | False of the code as stated: a failing encode keeps the insertions of the fields before the bad one; the _refuted theorem is the counterexample, the _partial theorem is what does hold.
C20 proved frame_header_layout frame_header_write frame_header_reserved_bit |
C21 proved frames_roundtrip | Frames as the serializers write them (no padding or priority fields); a block must not end in an empty CONTINUATION, see C23.
C22 partial payload_parse_exact unknown_type_ignored data_accounts_for_payload framer_in_bounds empty_payload_exact_partial empty_padded_frame_accepted_refuted | Bounds and exactness are proved for every non-empty payload; an empty DATA/HEADERS frame with PADDED or PRIORITY set is accepted instead of refused (the _refuted theorem).
C23 partial no_interleaving_partial interleaving_is_connection_error empty_headers_interleaved_refuted empty_continuation_poisons_refuted | False of the code for a block opened by an empty HEADERS frame (refuted); proved for every other octet sequence and endpoint behaviour.
C24 proved settings_validation settings_unknown_accepted peer_max_frame_size_safe |
C25 proved content_length_exact |
C26 proved header_field_valid_exact header_field_no_injection connection_headers_forbidden te_only_trailers pseudo_order_exact request_pseudo_exact response_pseudo_exact |
C27 proved stream_state_exact closed_stream_never_reopens |
C28 partial window_change_exact_partial window_growth_overflow_refused shrinking_window_rejected_refuted negative_window_rejected_refuted minus_one_window_rejected_refuted | False of Http2StreamBase::update_peer_window_size when the window shrinks (three _refuted theorems); exact where the helper's guard does not misfire.
C29 partial window_update_exact window_update_bounded window_update_sentinel_refuted | Exact for non-negative windows; for negative windows the -1 sentinel is ambiguous.
C30 proved chunking_irrelevant octet_by_octet |
C31 proved send_headers_legal send_headers_delivered |
C32 proved server_no_undefined_behaviour | Over the model's ub flag, set wherever the code would dereference an absent stream or read past a buffer; memory reuse inside qb-io is not modelled.
C33 proved server_connection_receive_window server_window_replenished_refuted | The window can stay exhausted: see the refutation.
C34 proved server_stream_receive_window |
C35 proved server_connection_send_window |
C36 proved server_respects_peer_settings |
C37 partial server_stream_send_window_partial server_stream_send_window_refuted | Proved for streams opened after the peer's last SETTINGS; the full claim is false of the code (server.h:2112 skips HALF_CLOSED_REMOTE streams), shown by the refutation.
C38 proved server_response_transmission server_two_responses_refuted | For streams answered once; two answers on one stream are mixed (refutation). The octets of the HPACK block are related to the response by C10-C19.
C39 proved server_delivers_complete_requests |
C40 proved server_concurrency_bound |
C41 proved server_control_reply_bound |
C42 proved server_header_block_bound |
C43 proved server_rapid_reset_bound |
C44 proved server_single_goaway |
C45 proved server_silent_after_own_reset server_silent_after_peer_reset server_silent_after_throw_refuted | The hypothesis that handlers do not throw is necessary (refutation).
C46 proved server_cleanup_spares_young_streams server_cleanup_resets_active_stream_refuted | Age, not inactivity, is what counts (refutation).
C47 proved ws_session_exact | Masks are any 4 octets; the application's error handler is assumed not to throw (inside a noexcept function that would terminate the process).
C48 proved ws_legal_accepted |
C49 proved ws_chunking |
C50 proved ws_stopped |
C51 proved ws_buffer_bounded |
C52 proved ws_close_message |
C53 proved ws_round_trip |
C54 proved ws_server_handshake | SHA-1 and base64 are parameters.
C55 proved ws_client_handshake ws_handshake_agrees ws_subprotocol | SHA-1 and base64 are parameters.
C56 proved match_serves match_none pmatch_captures_unique |
C57 proved registration_exact rejected_registration_keeps_names_refuted | After a rejected call the acceptance test may also refuse names that clash with the rejected route's prefix (the refutation); matching is unaffected.
C58 proved allowed_methods_exact |
C59 proved router_decision |
C60 proved declarations_registered declarations_accepted |
C61 proved context_one_response |
C62 proved context_quiet_after_end |
C63 proved context_end_not_lost |
C64 proved context_task_order context_task_order_refuted | The hypothesis that no task runs before routing is necessary: a PRE_ROUTING hook reporting ERROR starts the error chain and the route's chain is started on top of it (refutation).
C65 proved context_cancel_target |
C66 proved context_simple_chain |
C67 proved rate_limit_bound | Times are nanoseconds of a steady clock; single-threaded listener as the code assumes.
C68 proved rate_limit_refusals rate_limit_memory rate_limit_long_id |
C69 proved client_id_peer client_id_forwarded client_id_proxy_header | A custom extractor is user code and not modelled.
C70 proved static_range_exact |
C71 proved static_if_none_match |
C72 proved static_contained static_contained_refuted | Proved with the exception the code has (index file that is a link); the unconditional claim is refuted. The file system model has no concurrent changes and no permissions; POSIX/libstdc++ path functions are modelled.
C73 proved static_no_links static_no_links_refuted | For paths without dot-dot elements; the unconditional claim is refuted.
C74 proved static_response static_head | Content-Type and Cache-Control not modelled; I/O errors not modelled.
C75 proved static_conditional static_precedence_refuted | The If-Modified-Since value is taken as parsed.
C76 proved static_prefix |
C77 proved date_format date_roundtrip date_total date_unique date_roundtrip_small_years_refuted | qb core's safe_timegm/safe_gmtime are modelled as the Gregorian calendar; the specification counts days one by one from 1970-01-01. The refutation covers years below 1000.
C78 proved date_parse_safe date_parse_sound date_parse_imf date_parse_rfc850 date_parse_asctime date_parse_strict_refuted | Same calendar assumption. The parser is more lenient than the grammar; that limit is a proved refutation.
C79 proved cookie_header_exact | The icase map of qb core is modelled as an insertion-ordered list with case-insensitive keys.
C80 proved cookie_parse_bounds cookie_value_clean_refuted cookie_apostrophe_refuted cookie_case_refuted | Three limits are proved refutations.
C81 proved set_cookie_refuses set_cookie_no_control set_cookie_roundtrip set_cookie_exact | qb::to_number<int> (qb core) modelled as documented at the call site; Expires restricted to years 1000-9999 (see C77).
C82 proved cookie_jar_history |
C83 proved http1_request_wire http1_request_unique http1_empty_chunked_request_refuted http1_target_injection_refuted | Method names (llhttp) and URI text (qb core) are inputs; the two exceptions are proved refutations.
C84 proved http1_request_accepts http1_response_accepts http1_request_refused http1_refusal_loses_queue_refuted | Header maps with at least one value per name; statuses 100-999.
C85 proved http1_response_wire http1_response_unique http1_missing_body_refuted | HEAD and CONNECT responses are outside the reader; the excluded cases are refuted.
C86 proved http1_chunk_stream |
C87 proved c87_reads_do_not_matter c87_large_reads_matter | llhttp is an arbitrary octet-incremental machine reporting at most one body octet per octet; the second theorem shows the 16 MiB bound on reads is needed (the chunk limit is applied to read fragments).
C88 proved c88_limits | For every machine in the place of llhttp, all reads of at most 16 MiB, at any time including connection close.
C89 partial c89_framing_fields_partial c89_framing_fields_refuted c89_trailers_become_headers | Proved for messages without trailer section; the full statement is refuted: trailer fields are entered into headers() after the checks (all but the last, which is lost).
C90 proved c90_length c90_chunked c90_no_body c90_until_close c90_pipelined | FirstMessage says the stream behind the message is treated as a new connection; c90_pipelined iterates it over any number of messages.
C91 proved c91_accepts c91_lookup c91_unambiguous c91_clean |
C92 proved c92_content_type c92_container |
C93 partial c93_first_request c93_excluded_refuted c93_preference_refuted | The choice is fully characterised by c93_first_request; the remaining wishes (exclusions after the wildcard, weights as preferences) are refuted.
C94 proved each_request_is_called_back_once statistics_count_the_requests |
C95 proved requests_are_written_in_order one_request_is_in_flight |
C96 proved held_requests_are_bounded push_at_the_limit_is_refused |
C97 proved batch_gets_its_responses batch_is_called_at_most_once batch_is_called_when_complete empty_batch_is_called_at_once |
C98 proved connect_callback_is_called_at_most_once connect_then_disconnect_is_never_answered | The stronger wish that every connect() is answered is refuted by the second theorem.
C99 partial response_goes_to_its_request late_response_goes_to_the_next_request | Proved if the connection's own timer does not fire and attempts do not finish inside the call that starts them; with the timer it is refuted by a concrete run.
C100 proved disconnect_settles_everything | Connection attempts do not finish inside the call that starts them.
C101 partial nothing_is_written_after_announced_close_partial push_in_the_callback_of_a_closing_response_fails idle_close_is_ignored | Proved when calls come from outside callbacks and a closing message answers a request; both exceptions are refuted by concrete runs.
C102 partial connection_outlives_its_dispatch_partial connection_is_destroyed_inside_its_dispatch | Proved when a transport told to close reports closed only later; otherwise refuted by a concrete run.
C103 proved queued_request_times_out disconnect_and_push_in_a_callback_stalls | The second theorem shows that the timer is the only thing that ends some requests.
C104 proved same_origin_spec only_own_origin_is_written other_origin_is_refused |
C105 proved document_read document_prefix_read cutting_is_invisible end_is_kept_refuted cutting_never_visible_refuted close_is_seen_refuted | The refuted statements mark where the hypotheses are needed: bytes after the end, header lines without a colon, delimiter text inside a part.
C106 proved put_then_read length_announced empty_reads_back_refuted values_read_back_refuted truncated_is_refused_refuted | The last three show what the hypotheses exclude.
C107 proved feed_in_bounds one_feed_in_bounds always_in_bounds_refuted | The unconditional statement (feeding on after the end callback) is refuted by a concrete run.
C108 proved as_multipart_limits |
C109 proved wrong_first_line error_stays |
C110 proved boundary_found boundary_absent |
C111 proved c111_no_origin c111_refused c111_granted c111_only_allowed |
C112 proved c112_credentials c112_never_star c112_default c112_secure | a request whose Origin is literally * gets * back; * in the list with credentials reflects every origin (c112_refuted_star_credentials)
C113 proved c113_vary |
C114 proved c114_passes c114_preflight | a preflight from a refused origin goes on to the handlers (c114_refuted_refused_preflight)
C115 proved c115_headers c115_unasked |
C116 proved c116_settings c116_same c116_reused | sequential; the pattern cache is not synchronised between cores
C117 proved c117_demanded c117_others c117_hsts c117_twice |
C118 proved c118_length c118_policy c118_own | freshness (unpredictability) of the nonce is the random source's; a handler can overwrite it (c118_refuted_overwritten)
C119 proved c119_choice c119_never_excluded |
C120 proved c120_compress c120_hook c120_applied c120_skipped | under the streaming contract in CompSpec; Body::compress alone can cut the output off (c120_refuted_truncated)
C121 proved c121_limit c121_memory | c121_limit needs no contract
C122 proved c122_request c122_errors | one coding per header; next to a known coding an unknown one is ignored (c122_refuted_unknown)
C123 proved c123_round_trip |
C124 proved c124_valid satisfies_schema | deeper schemas: c124_deep_refuted_reject, c124_deep_refuted_accept; numbers are compared as doubles, lengths are octets
C125 proved c125_errors |
C126 proved c126_no_throw | other schemas throw when a value is validated: c126_exclusive_number_refuted, c126_pattern_refuted
C127 proved c127_values c127_limits |
C128 proved c128_rule c128_sanitize c128_path |
C129 proved c129_trim c129_trim_iff c129_upper c129_lower c129_alphanumeric c129_normalize |
C130 proved c130_shown c130_no_markup c130_exact |
C131 proved c131_part c131_plain c131_tag c131_unterminated c131_comment c131_no_tags | with << a tag passes, as documented (c131_double_refuted)
C132 proved c132_like c132_literal | a backslash re-enables a wildcard: c132_backslash_refuted
C133 proved c133_parse whole_iff |
C134 proved c134_request builtin_honest type_rule_honest builtin_holds | a rule that returns false without adding an error is ignored: c134_silent_rule_refuted
C135 proved c135_no_throw | a bad pattern throws at request time: c135_pattern_refuted
C136 proved c136_middleware | an error value that is not UTF-8 makes the middleware throw: c136_escape_refuted
C137 proved c137_values | errors of the body schema ignore the policy: c137_body_refuted
C138 proved c138_register |
C139 proved c139_token c139_no_scheme |
C140 proved c140_signed c142_user | the JWT library is a parameter
C141 proved c141_unsigned c142_user | an unsigned token without exp passes the expiry check (c141_no_exp_refuted), an exp from 2^63 on counts as long past (c141_far_exp_refuted)
C142 proved c142_user | roles after the first non-text item are dropped
C143 proved c143_generated c143_roundtrip | the unconditional round trip is false: c143_roundtrip_refuted, c143_numeric_refused (user id 42)
C144 proved c144_any c144_all |
C145 proved c145_settings c145_names c145_factory |
C146 proved c146_admitted c146_forbidden c146_anonymous c146_unauthenticated c146_one |
C147 proved c147_token |
C148 proved c148_passes c148_stops c148_cases c149_payload |
C149 proved c149_payload |
C150 proved c150_chain c150_role_key | a numeric subject is lost between the two (c150_numeric_sub_refuted); roles are not demanded of anonymous requests (c150_optional_roles_refuted); role_auth_middleware accepts tokens made with the empty key (c150_role_forged_refuted)
C151 proved c151_readback c151_built coding_ours c151_empty_name_refuted | The refuted theorem shows why the empty name is excluded.
C152 proved c152_form c152_read c152_unique | Percent decoding is a parameter (qb::io::uri is outside the repository).
C153 proved c153_body | For any percent coding with the contract Coding that leaves the three parameter names as they are.
C154 proved c154_decision c154_refusal c154_text_score_refuted | The refuted theorem: by default a score that is no number is ignored.
C155 proved c155_token c155_asks | JSON parsing is a parameter.
C156 proved c156_passes c156_stops c156_settles | Replies come at most once per verification in the code's client; the theorems also cover repeated ones.
C157 proved c157_registered c157_handled |
C158 proved c158_transparent c158_otherwise c158_skipped c158_contained c158_thrown c158_transform | Over CtxModel's executions; the predicate does not itself complete the context in the transparency theorems.
C159 proved c159_observed c159_own c159_shared_name_refuted | The application keeps away from the timing keys; the refuted theorem: two timing middlewares of the same (default) name share their start.
C160 proved client_respects_send_windows | While the 31-bit stream identifiers last (ids_left); the application does not call send_request_trailers.
C161 proved client_header_frames_fit | Trailers sent by the client are not cut (finding).
C162 proved client_transmits_request | trailers_call_refuted shows why send_request_trailers is excluded.
C163 proved client_tells_at_most_once | That every request is told is false: every_request_is_told_refuted.
C164 proved client_response_faithful | The :status field may stand anywhere among the pseudo-header fields.
C165 proved client_credit_earned client_stream_window |
C166 proved client_replies_bounded |
C167 proved client_header_block_bounded client_stored_block_bounded |
C168 proved client_quiet_after_goaway client_one_goaway |
C169 proved client_closed_is_inert |
C170 proved client_fresh_streams |
C171 proved client_silent_after_reset |
C172 proved client_no_undefined_behaviour |
C173 proved client_refuses_push |
C174 proved client_within_stream_limit client_open_streams_bounded |
C175 proved client_open_stream_credited client_enforces_stream_window |
C176 proved client_connection_errors client_rejects_invalid_settings client_stream_credit_overflow |
C177 proved client_answers_ping client_acknowledges_settings |
C178 proved coro_frames_in_order |
C179 partial coro_keeping_up_loses_nothing_partial coro_destroyed_receive_loses_a_frame_refuted | Proved when no coroutine is destroyed while it waits in receive(); otherwise refuted: the next frame is given to the destroyed awaiter and lost.
C180 proved coro_buffer_bounded coro_lowered_limit_is_exceeded_refuted | The limit in force itself may be exceeded after it was lowered (the _refuted theorem).
C181 proved coro_one_outcome |
C182 proved coro_nothing_waits_after_the_end coro_connect_ends_earlier_calls |
C183 partial coro_peer_close_answered_partial coro_peer_close_not_echoed_twice coro_session_refused_close_silences_refuted coro_refused_close_blocks_the_next_refuted coro_close_after_peer_close_refuted | Proved for the client, and for sessions without a refused close_async(); refuted with one (the peer's Close stays unanswered). A refused close_async() also blocks the next one, and one after the peer's Close sends a second Close (both refuted on both sides).
C184 proved coro_waiting_receive_is_served |
C185 proved coro_connect_succeeds coro_close_succeeds coro_connect_ends_earlier_calls |
C186 proved coro_no_false_disconnection |
