{"id": "C01", "title": "Percent-encoding is lossless", "statement": "Percent-decoding (decode_path_component) the output of uri_encode_component returns exactly the original bytes, so distinct components never encode to the same text.", "quantifier": "every byte string of any length", "why_tests_cant": "the claim covers all byte strings; tests sample a few, and boundary interactions (a literal percent sign followed by hex digits) arise only from combinations", "anchors": ["src/qbm/http/utility.cpp:uri_encode_component", "src/qbm/http/utility.cpp:decode_path_component"]}
{"id": "C02", "title": "Percent-encoded text is safe inside a URI", "statement": "The output of uri_encode_component consists only of RFC 3986 unreserved characters and complete %XX escapes with upper-case hex digits; no reserved, control or non-ASCII byte survives.", "quantifier": "every byte string", "why_tests_cant": "must hold for every one of the 256 byte values in every position", "anchors": ["src/qbm/http/utility.cpp:uri_encode_component"]}
{"id": "C03", "title": "Percent-decoding follows the grammar exactly", "statement": "decode_path_component replaces exactly the complete %HH escapes, read left to right, by the byte they denote, copies every other byte (including + and incomplete escapes) verbatim, reads nothing outside the input and never grows it.", "quantifier": "every byte string, including malformed escapes at the end", "why_tests_cant": "all malformed tails and overlapping escapes must be covered", "anchors": ["src/qbm/http/utility.cpp:decode_path_component", "src/qbm/http/utility.h:is_hex_digit,hex_value"]}
{"id": "C04", "title": "HTML escaping neutralises markup and loses nothing", "statement": "The output of escape_html contains no <, >, double quote or apostrophe and every & in it starts one of the five entities; replacing the entities gives the input back.", "quantifier": "every byte string", "why_tests_cant": "an XSS-relevant universally quantified claim over all inputs", "anchors": ["src/qbm/http/utility.cpp:escape_html"]}
{"id": "C05", "title": "Case-insensitive comparison is ASCII case folding", "statement": "iequals(a,b) holds exactly when a and b have the same ASCII-lower-cased bytes; it is reflexive, symmetric and transitive, and non-letters (for instance @ and backquote, [ and {) are never identified.", "quantifier": "every pair/triple of byte strings", "why_tests_cant": "65536 byte pairs per position, all lengths; bit tricks fail only on specific pairs", "anchors": ["src/qbm/http/utility.h:iequals,ascii_to_lower"]}
{"id": "C06", "title": "Splitting is lossless", "statement": "Joining the pieces of split_view(s,d), or of split_string_by(s,boundary), with the delimiter gives s back; no piece of split_view contains the delimiter and no piece of split_string_by contains the boundary; an empty boundary yields the whole input.", "quantifier": "every string, delimiter and boundary (including overlapping self-similar boundaries)", "why_tests_cant": "overlap cases such as boundary aa in aaa are unbounded", "anchors": ["src/qbm/http/utility.h:split_view,split_string_by,join"]}
{"id": "C07", "title": "Token splitting yields exactly the non-empty tokens", "statement": "split_string returns in order the maximal non-empty delimiter-free runs of the input; split_and_trim_header_list returns in order the non-empty comma-separated items with surrounding SP/HTAB removed and nothing else.", "quantifier": "every string and delimiter set", "why_tests_cant": "all adjacency and edge configurations of delimiters and blanks", "anchors": ["src/qbm/http/utility.h:split_string,trim_http_whitespace", "src/qbm/http/utility.cpp:split_and_trim_header_list"]}
{"id": "C08", "title": "HPACK integers round-trip", "statement": "For every prefix width 1..8, high-bit pattern and 64-bit value, decoding the encoder's bytes followed by anything returns that value and consumes exactly those bytes.", "quantifier": "every prefix width, pattern, 64-bit value and trailing bytes", "why_tests_cant": "2^64 values, and the multi-byte boundary cases depend on prefix and value together", "anchors": ["src/qbm/http/2/protocol/hpack.cpp:Encoder::encode_integer,Decoder::decode_integer"]}
{"id": "C09", "title": "HPACK integer decoding is exact and bounded", "statement": "On arbitrary bytes the integer decoder either reports failure or returns the exact mathematical value of the representation (below 2^64, never wrapped); it never reads past the end of the block and consumes at most 11 bytes.", "quantifier": "every byte string and prefix width", "why_tests_cant": "adversarial continuation sequences of any length", "anchors": ["src/qbm/http/2/protocol/hpack.cpp:Decoder::decode_integer"]}
{"id": "C10", "title": "Huffman coding round-trips", "statement": "Decoding the Huffman encoding of any byte string returns that string.", "quantifier": "every byte string of any length", "why_tests_cant": "257-symbol code with lengths 5..30 crossing byte boundaries in every alignment", "anchors": ["src/qbm/http/2/protocol/hpack_huffman.cpp:huffman_encode,huffman_decode", "src/qbm/http/2/protocol/hpack_huffman.h:HUFFMAN_TABLE"]}
{"id": "C11", "title": "Huffman decoding accepts only canonical encodings", "statement": "The decoder accepts a byte string only if it is exactly the encoding of the string it returns: an embedded EOS symbol, padding longer than 7 bits, or padding that is not all ones is always rejected.", "quantifier": "every byte string", "why_tests_cant": "the set of malformed encodings is infinite", "anchors": ["src/qbm/http/2/protocol/hpack_huffman.cpp:huffman_decode,build_decode_tree"]}
{"id": "C12", "title": "Huffman is used only when it saves space", "statement": "The size predicted for a Huffman encoding is the size produced, and a string literal the encoder emits is never longer than its plain form.", "quantifier": "every byte string", "why_tests_cant": "depends on the whole code-length table", "anchors": ["src/qbm/http/2/protocol/hpack_huffman.cpp:should_use_huffman,calculate_huffman_encoded_size", "src/qbm/http/2/protocol/hpack.cpp:Encoder::encode_string_literal"]}
{"id": "C13", "title": "The HPACK dynamic table is the RFC 7541 FIFO", "statement": "After any sequence of insertions, resizes and clears the table shows, newest first, exactly the entries the RFC 7541 eviction rules leave; its reported byte size is the sum of entry sizes and never exceeds its maximum; no access leaves the ring buffer.", "quantifier": "every operation history, entry size and maximum", "why_tests_cant": "ring-buffer wrap-around, growth and eviction interleave in unboundedly many ways", "anchors": ["src/qbm/http/2/protocol/hpack.h:DynamicTable", "src/qbm/http/2/protocol/hpack.cpp:DynamicTable::add,set_max_byte_size,ensure_capacity_for_one_more"]}
{"id": "C14", "title": "HPACK header blocks round-trip over a whole connection", "statement": "For any sequence of header blocks the encoder accepts, with encoder capacity reductions in between, a decoder that reads the blocks in order recovers the same names and values in the same order.", "quantifier": "every history of header lists and capacity changes", "why_tests_cant": "the compression state couples every block to all earlier ones", "anchors": ["src/qbm/http/2/protocol/hpack.cpp:Encoder::encode,Decoder::decode"]}
{"id": "C15", "title": "Sensitive and pseudo headers are never indexed", "statement": "Encoding a header marked sensitive, sensitive by default (authorization, cookie, proxy-authorization, set-cookie*) or a pseudo-header never inserts it into either side's dynamic table, and unless the exact pair is already in a table it is sent as never-indexed, which the decoder reports as sensitive.", "quantifier": "every header list and table state", "why_tests_cant": "a leak (CRIME-style) may need a particular table history", "anchors": ["src/qbm/http/2/protocol/hpack.cpp:Encoder::encode", "src/qbm/http/2/protocol/hpack.h:HeaderField::is_sensitive_by_default"]}
{"id": "C16", "title": "A peer cannot grow the decoder table beyond the advertised limit", "statement": "Whatever bytes are decoded, accepted or rejected, the decoder's dynamic table never exceeds the configured limit; a size update above the limit, or after the first field of a block, is rejected.", "quantifier": "every sequence of byte blocks", "why_tests_cant": "adversarial input histories", "anchors": ["src/qbm/http/2/protocol/hpack.cpp:Decoder::decode", "src/qbm/http/2/protocol/hpack.h:Decoder::set_max_dynamic_table_size"]}
{"id": "C17", "title": "Accepted header lists respect the header-list limit", "statement": "If decoding succeeds and a limit is set, the sum over decoded fields of name length + value length + 32 is at most the limit, and every field comes from a valid index or a complete literal.", "quantifier": "every block, table state and limit", "why_tests_cant": "header bombs combine indexed references and evictions", "anchors": ["src/qbm/http/2/protocol/hpack.cpp:Decoder::decode,get_dynamic_table_entry,get_name_from_index"]}
{"id": "C18", "title": "Static-table lookups are correct", "statement": "The name lookup returns the lowest index of the RFC 7541 static table carrying that name if there is one and nothing otherwise; the exact lookup returns an index carrying exactly that pair if there is one and nothing otherwise.", "quantifier": "every name and value string", "why_tests_cant": "hash-probed index: a collision could break any of infinitely many names", "anchors": ["src/qbm/http/2/protocol/hpack.h:static_table::find_name_match,find_exact_match,build_name_index"]}
{"id": "C19", "title": "A failed encode leaves the compression state usable", "statement": "If encode reports failure, subsequent successful encodes are still decodable by a decoder that never saw the failed block's bytes.", "quantifier": "every table state and failing header list", "why_tests_cant": "failure position inside a list and later references to entries inserted before it", "anchors": ["src/qbm/http/2/protocol/hpack.cpp:Encoder::encode"]}
{"id": "C20", "title": "Frame header fields round-trip", "statement": "For every payload length below 2^24, type, flags and stream id below 2^31, the 9-byte header reads back exactly; the reserved bit of the stream id is ignored on reading and cleared on writing.", "quantifier": "all field values", "why_tests_cant": "2^24 x 2^31 combinations", "anchors": ["src/qbm/http/2/protocol/frames.h:FrameHeader"]}
{"id": "C21", "title": "Every HTTP/2 frame survives serialisation and parsing", "statement": "Parsing the bytes a serializer wrote for a frame (SETTINGS, PING, GOAWAY, WINDOW_UPDATE, RST_STREAM, PRIORITY, DATA, HEADERS, PUSH_PROMISE, CONTINUATION) delivers the same frame, with reserved bits cleared.", "quantifier": "every frame value with payload below 2^24 bytes", "why_tests_cant": "payload sizes and field values are unbounded", "anchors": ["src/qbm/http/2/protocol/base.cpp:pipe::put<Http2FrameData<...>>", "src/qbm/http/2/protocol/base.h:handle_*_frame_payload"]}
{"id": "C22", "title": "Malformed frame payloads never cause out-of-range reads", "statement": "For every payload and flag combination the frame parser reads only inside the payload: bad pad lengths, short priority/promise fields and wrong fixed sizes are reported as errors, and for DATA the delivered data plus padding accounts for every payload byte.", "quantifier": "every payload, type and flags", "why_tests_cant": "memory-safety claim over adversarial input", "anchors": ["src/qbm/http/2/protocol/base.h:validate_padded_frame,handle_data_frame_payload,handle_headers_frame_payload,handle_push_promise_frame_payload"]}
{"id": "C23", "title": "Header blocks are not interleaved", "statement": "After a HEADERS or PUSH_PROMISE frame without END_HEADERS the only frame dispatched next is a CONTINUATION on the same stream, until END_HEADERS; anything else is a connection error.", "quantifier": "every frame sequence", "why_tests_cant": "frame interleavings are unbounded", "anchors": ["src/qbm/http/2/protocol/base.h:onMessage,handle_continuation_frame_payload"]}
{"id": "C24", "title": "SETTINGS validation matches RFC 9113", "statement": "A setting value is rejected exactly when the RFC forbids it (ENABLE_PUSH/ENABLE_CONNECT_PROTOCOL above 1, INITIAL_WINDOW_SIZE above 2^31-1, MAX_FRAME_SIZE outside 2^14..2^24-1) with the RFC error code; unknown identifiers are accepted.", "quantifier": "every identifier and 32-bit value", "why_tests_cant": "2^48 combinations", "anchors": ["src/qbm/http/2/protocol/base.cpp:SettingsHelper::validate_setting"]}
{"id": "C25", "title": "Content-Length parsing is exact", "statement": "parse_content_length returns n exactly when the trimmed value is a non-empty string of decimal digits denoting n < 2^64; signs, blanks inside, and overflowing values are rejected, never wrapped.", "quantifier": "every byte string", "why_tests_cant": "overflow boundary and arbitrary lengths", "anchors": ["src/qbm/http/2/protocol/base.cpp:HeaderValidator::parse_content_length"]}
{"id": "C26", "title": "HTTP/2 header field checks block injection", "statement": "Names accepted by the field validator are non-empty lower-case tokens and accepted values contain no control byte except TAB, hence no CR, LF or NUL; TE is accepted only with trailers; pseudo-headers after a regular field are always detected; request pseudo-headers are accepted exactly when each of the four required ones occurs once, is non-empty and no other occurs.", "quantifier": "every header list", "why_tests_cant": "header injection must be impossible for all inputs", "anchors": ["src/qbm/http/2/protocol/base.cpp:HeaderValidator"]}
{"id": "C27", "title": "The HTTP/2 stream state machine is sound", "statement": "Along any sequence of END_STREAM and reset events on a stream: a closed stream never reopens, data can be sent only before the local END_STREAM and received only before the remote one, and END_STREAM in both directions closes the stream.", "quantifier": "every event sequence", "why_tests_cant": "event orders are unbounded", "anchors": ["src/qbm/http/2/protocol/stream.cpp:transition_state,mark_reset", "src/qbm/http/2/protocol/stream.h:Http2StreamBase"]}
{"id": "C28", "title": "Changing the peer's initial window adjusts every stream by the difference", "statement": "On a SETTINGS_INITIAL_WINDOW_SIZE change each stream's send window moves by exactly new-old (possibly below zero); only a window above 2^31-1 is an error.", "quantifier": "every window, old and new value", "why_tests_cant": "signed/unsigned boundary arithmetic", "anchors": ["src/qbm/http/2/protocol/stream.cpp:update_peer_window_size", "src/qbm/http/2/protocol/stream.h:FlowControlManager"]}
{"id": "C29", "title": "A WINDOW_UPDATE never lifts a window above 2^31-1", "statement": "Applying an increment either yields the exact sum, at most 2^31-1, or is reported as an error and leaves the window unchanged.", "quantifier": "every window and increment", "why_tests_cant": "64-bit boundary arithmetic", "anchors": ["src/qbm/http/2/protocol/stream.h:FlowControlManager::update_window_safe"]}
{"id": "C30", "title": "Input chunking does not matter to the HTTP/2 parser", "statement": "Feeding a connection the same octets cut into any sequence of reads (one octet at a time, all at once, cuts inside the preface, a header or a payload) leads to the same dispatched frames, the same errors and the same left-over octets.", "quantifier": "every octet sequence, every way of cutting it, every behaviour of the endpoint that handles the frames", "why_tests_cant": "The number of cut patterns is exponential in the input length; tests try a handful.", "anchors": ["src/qbm/http/2/protocol/base.h:getMessageSize,onMessage"]}
{"id": "C31", "title": "A header block of any size is sent as a legal HEADERS/CONTINUATION sequence", "statement": "The frames written for an encoded header block are one HEADERS frame followed by CONTINUATION frames on the same stream; their fragments concatenate to the block, none exceeds the peer's maximum frame size, END_HEADERS is set on the last frame and no other, the remaining flags of the first frame are those requested, and a conforming peer framer delivers exactly these frames.", "quantifier": "every block, stream id, flags and peer frame limit", "why_tests_cant": "Block lengths and limits are unbounded; off-by-one errors show only at exact multiples of the limit.", "anchors": ["src/qbm/http/2/protocol/base.h:send_headers_with_continuation"]}
{"id": "C32", "title": "No event sequence drives the HTTP/2 server into undefined behaviour", "statement": "Whatever frames a peer sends, in any order, and whatever the application calls, the HTTP/2 server session never dereferences a stream it does not hold and never reads outside the octets it received.", "quantifier": "every sequence of received frames, framing errors, transport losses, application calls inside and outside handlers (throwing or not) and clock advances", "why_tests_cant": "The danger lies in interleavings (a handler resetting its own stream, cleanup between fragments) that a test suite samples only sparsely.", "anchors": ["src/qbm/http/2/protocol/server.h: ServerHttp2Protocol::on(DataFrame), on(HeadersFrame), on(ContinuationFrame), dispatch_complete_request, process_header_block"]}
{"id": "C33", "title": "Connection receive window", "statement": "While the connection is open the server never accepts more flow-controlled DATA octets (padding included) than 65535 plus the credit it granted in WINDOW_UPDATE frames on stream 0, and never grants more credit than octets received.", "quantifier": "every event sequence that leaves the connection open", "why_tests_cant": "The balance must hold after every history of DATA, resets and errors, each with its own accounting path.", "anchors": ["src/qbm/http/2/protocol/server.h: on(DataFrame), conditionally_send_connection_window_update"]}
{"id": "C34", "title": "Stream receive window", "statement": "On a request still being received, the octets of DATA accepted never exceed 65535 plus the credit granted on that stream, and at least half the window is always open, so an upload of any size can proceed.", "quantifier": "every event sequence and every client stream still in progress", "why_tests_cant": "Stalls depend on the exact accumulation of frame sizes over an unbounded upload.", "anchors": ["src/qbm/http/2/protocol/server.h: on(DataFrame)", "src/qbm/http/2/protocol/base.h: should_send_window_update, calculate_window_threshold"]}
{"id": "C35", "title": "Connection send window", "statement": "At every moment the DATA octets sent by the server total no more than 65535 plus the credit received on stream 0.", "quantifier": "every event sequence and every moment of it", "why_tests_cant": "Requires accounting across all streams and all orders of WINDOW_UPDATE and responses.", "anchors": ["src/qbm/http/2/protocol/server.h: try_send_pending_data_for_stream, on(WindowUpdateFrame)"]}
{"id": "C36", "title": "Frames written respect the peer's settings", "statement": "Every DATA, HEADERS and CONTINUATION frame the server writes fits the SETTINGS_MAX_FRAME_SIZE in force when it is written, and PUSH_PROMISE is written only while the peer allows push.", "quantifier": "every event sequence, including settings that change between the frames of one response", "why_tests_cant": "The setting in force at each frame depends on the whole history.", "anchors": ["src/qbm/http/2/protocol/server.h: send_response, try_send_pending_data_for_stream, send_push_promise, on(SettingsFrame)", "src/qbm/http/2/protocol/base.h"]}
{"id": "C37", "title": "Stream send window", "statement": "On each client stream the DATA octets sent never exceed the initial window the peer advertised plus the credit received on that stream.", "quantifier": "every event sequence", "why_tests_cant": "Depends on the interleaving of SETTINGS, WINDOW_UPDATE and responses.", "anchors": ["src/qbm/http/2/protocol/server.h: on(SettingsFrame), apply_setting, try_send_pending_data_for_stream"]}
{"id": "C38", "title": "A response is transmitted faithfully", "statement": "If the application answers a request once, the frames sent on its stream start with HEADERS, the DATA octets are a prefix of the response body in order, END_STREAM appears only on the last frame and only when the whole body has been sent; if it does not answer, no HEADERS or DATA frame is sent.", "quantifier": "every event sequence: any body, any window sizes, any interleaving with other streams, resets and errors", "why_tests_cant": "Fragmentation depends on unboundedly many combinations of windows, frame sizes and events.", "anchors": ["src/qbm/http/2/protocol/server.h: send_response, try_send_pending_data_for_stream, send_trailers"]}
{"id": "C39", "title": "The application only sees complete, well-formed requests", "statement": "Each request is delivered at most once, on a client stream, after END_STREAM, with a body equal to the concatenation of the DATA payloads received, equal in length to content-length if declared, with only valid lower-case header fields and no connection-specific field, a known method and a URI with a path.", "quantifier": "every event sequence", "why_tests_cant": "A request may be spread over any number of frames interleaved with others and interrupted by resets.", "anchors": ["src/qbm/http/2/protocol/server.h: process_header_block, on(DataFrame), dispatch_complete_request"]}
{"id": "C40", "title": "At most 50 concurrent requests", "statement": "At no time are more than 50 client streams in progress.", "quantifier": "every event sequence", "why_tests_cant": "Must hold for every order of opens, closes and resets.", "anchors": ["src/qbm/http/2/protocol/server.h: on(HeadersFrame)"]}
{"id": "C41", "title": "Bounded replies to control-frame floods", "statement": "The server writes at most 1000 PING and SETTINGS acknowledgements between two HEADERS or DATA frames received.", "quantifier": "every event sequence and every moment", "why_tests_cant": "A flood is unbounded in length and in the mix of frames.", "anchors": ["src/qbm/http/2/protocol/server.h: on(PingFrame), on(SettingsFrame)"]}
{"id": "C42", "title": "Bounded header blocks", "statement": "While the connection is open at most 512 CONTINUATION frames follow a HEADERS frame, and no more than 1 MiB of header fragments is buffered.", "quantifier": "every event sequence that leaves the connection open", "why_tests_cant": "CONTINUATION floods are unbounded in number and fragment size.", "anchors": ["src/qbm/http/2/protocol/server.h: on(HeadersFrame), on(ContinuationFrame), append_header_fragment"]}
{"id": "C43", "title": "Rapid-reset attacks are cut off", "statement": "While the connection is open the number of client resets received is at most 100, or at most half the number of client streams opened so far.", "quantifier": "every event sequence that leaves the connection open", "why_tests_cant": "The attack interleaves arbitrarily many opens and resets.", "anchors": ["src/qbm/http/2/protocol/server.h: on(RstStreamFrame)"]}
{"id": "C44", "title": "One GOAWAY, and nothing delivered after it", "statement": "The server sends at most one GOAWAY frame and delivers no request to the application after it.", "quantifier": "every event sequence", "why_tests_cant": "Several errors can follow one another in any order.", "anchors": ["src/qbm/http/2/protocol/server.h: send_goaway_and_close, dispatch_complete_request"]}
{"id": "C45", "title": "Silence after reset", "statement": "When handlers do not throw, the server sends no HEADERS or DATA on a stream after sending RST_STREAM on it; and after the peer resets a stream on a connection that stays open, none is sent on it any more.", "quantifier": "every event sequence", "why_tests_cant": "The reset may come between any two frames of a response, from either side or from the application.", "anchors": ["src/qbm/http/2/protocol/server.h: send_rst_stream, on(RstStreamFrame), try_close_stream_context_by_id"]}
{"id": "C46", "title": "Idle cleanup spares young streams", "statement": "cleanup_idle_streams with its default limits leaves untouched every stream created no more than ten seconds earlier.", "quantifier": "every event sequence, stream and iteration order", "why_tests_cant": "Depends on clock values and on the state of all the other streams.", "anchors": ["src/qbm/http/2/protocol/server.h: cleanup_idle_streams"]}
{"id": "C47", "title": "WebSocket: every octet sequence is accounted for", "statement": "For every sequence of received octets, in whatever chunks, a WebSocket endpoint (client or server) has reported exactly the events of the longest legal RFC 6455 conversation the octets start with, has answered each ping at once with a pong carrying the same payload (unmasked if it is the server, masked if it is the client), and then either waits for more octets, or has stopped: with a close frame carrying the code the offence requires (1002 protocol, 1007 invalid UTF-8, 1009 too big), or on a legal close frame, handed to the application or echoed, or because the application's handler threw.", "quantifier": "every octet sequence, chunking, role, payload limit, mask sequence and handler behaviour", "why_tests_cant": "Fragmentation, interleaved control frames, three length encodings, masking and UTF-8 interact; the octet sequences are unbounded.", "anchors": ["src/qbm/http/ws/ws.h: base::getMessageSize, onMessage, processControlFrame, processDataFrame, fail_connection", "src/qbm/http/ws/ws.cpp: is_utf8, put"]}
{"id": "C48", "title": "WebSocket: legal conversations are accepted in full", "statement": "If the received octets are the wire form of a legal conversation and the handlers do not throw, the connection stays open and the events reported are exactly those of the conversation, in order.", "quantifier": "every legal conversation and chunking", "why_tests_cant": "A parser may wrongly reject some length encoding, fragmentation or interleaving a test does not contain.", "anchors": ["src/qbm/http/ws/ws.h: base::getMessageSize, onMessage"]}
{"id": "C49", "title": "WebSocket: chunking is irrelevant", "statement": "Two ways of cutting the same octets into reads leave the endpoint in the same state with the same events and the same octets written.", "quantifier": "every octet sequence and pair of chunkings", "why_tests_cant": "Partial headers, partial extended lengths and partial payloads keep state between calls; the number of cuts is exponential.", "anchors": ["src/qbm/http/ws/ws.h: base::getMessageSize (_parsed, _expected_size)"]}
{"id": "C50", "title": "WebSocket: silence after the end", "statement": "Once an endpoint has stopped (failure, close, exception) no further octets make it report an event or write anything.", "quantifier": "every octet sequence before and after", "why_tests_cant": "Requires all continuations to be considered.", "anchors": ["src/qbm/http/ws/ws.h: base::ok, not_ok"]}
{"id": "C51", "title": "WebSocket: reassembly is bounded", "statement": "With a non-zero payload limit the message under reassembly never holds more octets than the limit, whatever the peer sends.", "quantifier": "every octet sequence and chunking", "why_tests_cant": "Memory bounds against adversarial fragmentation are a statement about all inputs.", "anchors": ["src/qbm/http/ws/ws.h: processDataFrame (_max_payload_size)"]}
{"id": "C52", "title": "WebSocket: close messages are well formed", "statement": "Building a close message succeeds exactly when the code may be sent and a reason of at most 123 octets is valid UTF-8 (a longer reason is cut to its longest valid prefix); the payload then is the code, most significant octet first, followed by valid UTF-8, at most 125 octets in all.", "quantifier": "every 16-bit code and reason", "why_tests_cant": "The cut may fall inside any multi-octet sequence.", "anchors": ["src/qbm/http/ws/ws.cpp: MessageClose::MessageClose, is_utf8", "src/qbm/http/ws/ws.h: is_sendable_close_code"]}
{"id": "C53", "title": "WebSocket: messages survive the trip", "statement": "Any sequence of text and binary messages serialised by one side (masked by a client, unmasked by a server) and read by the other in any chunks arrives as exactly that sequence of messages.", "quantifier": "every message sequence, mask and chunking", "why_tests_cant": "Three length forms, masking in words and octets, arbitrary chunking.", "anchors": ["src/qbm/http/ws/ws.cpp: fill_unmasked_message, fill_masked_message", "src/qbm/http/ws/ws.h: base"]}
{"id": "C54", "title": "WebSocket: the server's handshake decision", "statement": "The server switches protocols exactly on a GET with the upgrade flag, an Upgrade field equal to websocket (case aside), a Connection list naming upgrade, version 13 and a 24-character key that is the canonical base64 of 16 octets; its Sec-WebSocket-Accept is base64(SHA-1(key + GUID)).", "quantifier": "every request (header values of any length), for any base64 and SHA-1 functions", "why_tests_cant": "Header list syntax and white space have unboundedly many forms.", "anchors": ["src/qbm/http/ws/ws.h: ws_server::populate_handshake_response, detail::has_token_ci, iequal_ascii, trim_ows"]}
{"id": "C55", "title": "WebSocket: the client's handshake decision", "statement": "The client accepts exactly a 101 response with the upgrade flag, the right Upgrade and Connection fields and the accept value of its own key; it accepts every response this library's server makes to it; a subprotocol it reports is one it offered and the only one the server named.", "quantifier": "every response, key and list of offers", "why_tests_cant": "As above.", "anchors": ["src/qbm/http/ws/ws.h: ws_client::validate_handshake_response, detail::constant_time_equal, WebSocket::on(response)"]}
{"id": "C56", "title": "Routing: the route that serves a request", "statement": "The route selected for a path and method is the registered pattern that matches the path and takes priority over every other registered matching pattern (literal before parameter before wildcard, decided at the first segment where they differ, with backtracking); the captures are the pattern's names with the matching path text; of several registrations of one pattern and method the last accepted one counts; no route is selected exactly when no registered pattern matches.", "quantifier": "every sequence of registration calls (accepted or not), every path and every method number", "why_tests_cant": "Route sets and paths are unbounded, and priority with backtracking depends on combinations of routes.", "anchors": ["src/qbm/http/routing/radix_tree.h: RadixTree::match_route, match_recursive, add_route, split_path_to_segments"]}
{"id": "C57", "title": "Routing: which registrations are accepted", "statement": "A registration is accepted exactly if its method number is in range, its captures are named without repetition, a wildcard comes last and it clashes with no earlier route over the name of a capture (the converse when no earlier call was rejected); a rejected registration changes no later match.", "quantifier": "every history of registration calls and every new call", "why_tests_cant": "Histories and patterns are unbounded.", "anchors": ["src/qbm/http/routing/radix_tree.h: RadixTree::add_route, RadixNode::get_or_create_child"]}
{"id": "C58", "title": "Routing: the set of allowed methods", "statement": "The methods reported for a path are exactly those for which some registered route matches it, without repetition and in increasing order; nothing is reported exactly if no route matches for any method.", "quantifier": "every registration history and every path", "why_tests_cant": "The set unions matches over many branches of an unbounded tree.", "anchors": ["src/qbm/http/routing/radix_tree.h: RadixTree::allowed_methods, collect_allowed_methods"]}
{"id": "C59", "title": "Routing: the router's decision", "statement": "A path over 4096 octets is answered 400; otherwise a matching route runs with its captures percent-decoded; otherwise, if other methods match, 405 with an Allow field listing exactly them; otherwise 404. The router never starts an empty chain.", "quantifier": "every registration history (with non-empty chains and standard methods), path and method", "why_tests_cant": "Depends on all routes and all paths.", "anchors": ["src/qbm/http/routing/router_core.h: RouterCore::route_request, allowed-methods header"]}
{"id": "C60", "title": "Routing: controllers and groups", "statement": "Compiling a tree of groups, controllers and routes registers, in declaration order, each route under the concatenation of its ancestors' prefixes with the middleware of its ancestors from the outside in, then its own handler; it succeeds exactly if all the routes are well formed and no two clash.", "quantifier": "every declaration tree (any depth and width)", "why_tests_cant": "Nesting is unbounded.", "anchors": ["src/qbm/http/routing/route_group.h: RouteGroup::compile_tasks_and_register", "src/qbm/http/routing/controller.h: Controller::compile_tasks_and_register", "src/qbm/http/routing/handler_node.h: IHandlerNode::build_full_path", "src/qbm/http/routing/router_core.h: RouterCore::compile_all_routes"]}
{"id": "C61", "title": "Context: one response per request", "statement": "Over the whole life of a request context, destruction included, the finalisation callback (which sends the response) is called at most once; exactly once if the response was never suppressed and no deferral guard outlives the context; never after suppress_response().", "quantifier": "every chain of tasks, every behaviour of tasks, hooks, cancel handlers and callback (any calls on the context, nested or from later turns, including exceptions), and destruction at any point", "why_tests_cant": "The interleavings of completions, cancellations, deferrals and re-entrant calls are unbounded.", "anchors": ["src/qbm/http/routing/context.h: Context::finalize_processing_internal, complete, cancel, suppress_response, ScopedFinalizationDeferral, ~Context"]}
{"id": "C62", "title": "Context: nothing happens after the end", "statement": "Once a request is finalised, answered or detached, no task is run or cancelled and the hooks do not run again; once cancel() has taken effect no further task starts and it does not take effect again.", "quantifier": "as C61", "why_tests_cant": "as C61", "anchors": ["src/qbm/http/routing/context.h: Context::proceed_to_next_task_internal, complete, cancel"]}
{"id": "C63", "title": "Context: ending a request is never lost", "statement": "If user code completed, cancelled or suppressed the request at any time (COMPLETE, CANCELLED, FATAL, cancel()) and no deferral guard is held, the context is finalised and, unless suppressed, the response has been sent.", "quantifier": "as C61", "why_tests_cant": "Depends on when guards are taken and released relative to nested completions.", "anchors": ["src/qbm/http/routing/context.h: Context::complete, ScopedFinalizationDeferral::release"]}
{"id": "C64", "title": "Context: task order", "statement": "If hooks before the route's chain start no task, the tasks run are real tasks of the route's chain in strictly increasing order followed by real tasks of the error chain in strictly increasing order: none is run twice and the error chain is entered at most once.", "quantifier": "as C61", "why_tests_cant": "as C61", "anchors": ["src/qbm/http/routing/context.h: Context::proceed_to_next_task_internal, complete", "src/qbm/http/routing/router_core.h: RouterCore::route_request"]}
{"id": "C65", "title": "Context: what cancel() cancels", "statement": "A task's cancel() is called at most once in the life of a request, only as part of a cancellation, before the request is over, and only on the task that was run last.", "quantifier": "as C61", "why_tests_cant": "as C61", "anchors": ["src/qbm/http/routing/context.h: Context::cancel"]}
{"id": "C66", "title": "Context: the outcome of a chain", "statement": "When each task reports exactly once (or throws), the request is processed in one way only: tasks run in order up to the first report other than CONTINUE; an error or exception continues with the error chain, or answers 500 if there is none or it fails too; FATAL answers 500; otherwise the status last set is sent; hooks run once, then one response is sent.", "quantifier": "every pair of chains of any length, every combination of reports, statuses and exceptions", "why_tests_cant": "Chain lengths and combinations are unbounded.", "anchors": ["src/qbm/http/routing/context.h: Context::complete, proceed_to_next_task_internal, set_task_chain_and_start"]}
{"id": "C67", "title": "Rate limiting: how many requests get through", "statement": "In no interval as long as the configured window does the middleware pass on more than twice max_requests requests of one client identifier, whatever other clients do and however sweeps of stale entries fall, as long as nobody resets that client.", "quantifier": "every history of requests from any clients, sweeps and resets, every clock, limit and window", "why_tests_cant": "Bursts can fall anywhere relative to window boundaries and to evictions of the table.", "anchors": ["src/qbm/http/middleware/rate_limit.h: RateLimitMiddleware::process, evict_stale_entries_internal"]}
{"id": "C68", "title": "Rate limiting: refusals are justified and memory is bounded", "statement": "A request is refused by the limit only if max_requests requests of the same client identifier were passed on less than a window before; 503 is given only to an untracked client while 100000 other clients were heard less than a window before; 400 only for an identifier of more than 256 octets, which then leaves no trace. The table never holds more than 100000 clients, nor one client twice.", "quantifier": "as C67, with resets", "why_tests_cant": "as C67; the capacity case needs 100000 clients", "anchors": ["src/qbm/http/middleware/rate_limit.h: RateLimitMiddleware::process"]}
{"id": "C69", "title": "Rate limiting: who is who", "statement": "Unless forwarded headers are trusted, the identifier of a client whose address is known is that address whatever headers it sends. Otherwise it is CF-Connecting-IP, else True-Client-IP, else the last element of X-Forwarded-For, so what the client puts before it has no influence.", "quantifier": "every session, every header value", "why_tests_cant": "Header values are arbitrary strings.", "anchors": ["src/qbm/http/middleware/rate_limit.h: RateLimitOptions::extract_client_id"]}
{"id": "C70", "title": "Static files: Range header", "statement": "A Range header is honoured if and only if it is a single well-formed byte range (first-last, first-, -suffix; digits only, numbers up to 2^63-1) that selects at least one octet of the file; the octets taken are exactly the selected ones.", "quantifier": "every header value, every file size", "why_tests_cant": "Header strings and sizes are unbounded, including numbers around 2^63.", "anchors": ["src/qbm/http/middleware/static_files.cpp: parse_byte_range"]}
{"id": "C71", "title": "Static files: If-None-Match comparison", "statement": "The comparison succeeds if and only if the header is \"*\" or one of its comma-separated elements is \"*\" or equals the current entity tag, disregarding optional white space and weakness marks.", "quantifier": "every header value, every non-empty tag", "why_tests_cant": "Lists of any length and any octets.", "anchors": ["src/qbm/http/middleware/static_files.cpp: if_none_match_contains"]}
{"id": "C72", "title": "Static files: nothing outside the root is served", "statement": "Whatever the request path (percent-encoding, dot segments, repeated slashes) and whatever symbolic links the tree holds, the content sent is that of a regular file whose real location is under the root directory. Exception found: an index file that is a symbolic link is followed anywhere.", "quantifier": "every file system (no concurrent change), every request, every configuration", "why_tests_cant": "Traversal tricks combine encodings, dot segments and links without bound.", "anchors": ["src/qbm/http/middleware/static_files.cpp: sanitize_and_resolve_path", "src/qbm/http/middleware/static_files.h: StaticFilesMiddleware::process"]}
{"id": "C73", "title": "Static files: refusing symbolic links", "statement": "With reject_symlinks, the file sent is the one literally named by the request path (or its index file), so no symbolic link was followed on the way. Exception found: a path with \"..\" after a name that does not exist.", "quantifier": "as C72", "why_tests_cant": "as C72", "anchors": ["src/qbm/http/middleware/static_files.h: StaticFilesMiddleware::process"]}
{"id": "C74", "title": "Static files: the response", "statement": "A request for a file is answered with exactly one of: 304 without body; 413 if the file exceeds max_file_size; 200 with the whole file; 206 with exactly the selected octets and matching Content-Length and Content-Range; 416 with the file size. HEAD gets the same headers as GET without Range and an empty body.", "quantifier": "every file content, request and configuration", "why_tests_cant": "Content, ranges and options combine without bound.", "anchors": ["src/qbm/http/middleware/static_files.h: StaticFilesMiddleware::process"]}
{"id": "C75", "title": "Static files: conditional requests", "statement": "304 is given if and only if entity tags are enabled and If-None-Match matches, or Last-Modified is enabled and the file is no newer (in seconds) than If-Modified-Since. Found: If-Modified-Since is consulted even if If-None-Match is present and does not match, contrary to RFC 9110.", "quantifier": "as C74", "why_tests_cant": "as C74", "anchors": ["src/qbm/http/middleware/static_files.h: StaticFilesMiddleware::process"]}
{"id": "C76", "title": "Static files: the path prefix", "statement": "The middleware handles a request exactly if the path is the configured prefix or continues it at a segment boundary; any other path goes to the next handler.", "quantifier": "every path and prefix", "why_tests_cant": "Arbitrary strings.", "anchors": ["src/qbm/http/middleware/static_files.h: path_prefix_matches"]}
{"id": "C77", "title": "Formatting a time as an HTTP date is exact and reversible", "statement": "For every instant in the years 1000-9999, format_http_date produces the RFC 9110 IMF-fixdate text of exactly that instant in UTC (right calendar date including leap years, right day of the week, right time of day), and parse_http_date of that text returns the same instant. (Years below 1000 are written without padding and do not parse back: proved refutation.)", "quantifier": "every whole second of the years 1000 to 9999", "why_tests_cant": "About 2.8e11 instants; leap-year and month-boundary errors show up only at particular ones.", "anchors": ["src/qbm/http/date.cpp: format_http_date", "src/qbm/http/date.cpp: parse_http_date", "src/qbm/http/date.cpp: make_time_point_utc"]}
{"id": "C78", "title": "HTTP date parsing: the three forms, exactly the calendar, never out of bounds", "statement": "For every string, parse_http_date reads only characters of that string and either rejects or returns an instant of the years 1-9999. For every choice of field values, the IMF-fixdate, RFC 850 and asctime renderings of those fields are accepted if and only if the fields are a real calendar date and time of day (no 31 April, 29 February only in leap years, no hour 24, no second 60), and then the result is that instant; two-digit years 70-99 mean 19xx and 00-69 20xx. (The converse, that nothing else is accepted, is false: fields may end early and the weekday is ignored, proved refutation.)", "quantifier": "every byte string, and every combination of weekday, year, month, day, hour, minute and second fields", "why_tests_cant": "The strings are unbounded and the valid-date predicate has exceptions at several time scales.", "anchors": ["src/qbm/http/date.cpp: parse_http_date", "src/qbm/http/date.cpp: parse_rfc1123_date", "src/qbm/http/date.cpp: parse_rfc850_date", "src/qbm/http/date.cpp: parse_asctime_date"]}
{"id": "C79", "title": "A well-formed Cookie header is parsed to exactly its cookies", "statement": "For every list of cookies whose names are tokens (at most 1024 octets, not starting with a dollar sign) and whose values (at most 4096 octets, no control characters) are written either as they are or as a double-quoted string with backslash escapes, joined with \"; \" into a header of at most 16384 octets: parse_cookies succeeds, looking up a name in any case returns the value of the first cookie of that name, and no other name is found. Commas and equal signs inside values are kept; semicolons are kept inside quotes.", "quantifier": "every list of such cookies, every looked-up name", "why_tests_cant": "Lists and strings are unbounded, and the parser is a character-level state machine whose errors depend on what precedes.", "anchors": ["src/qbm/http/cookie.cpp: parse_cookies", "src/qbm/http/cookie.cpp: is_cookie_attribute"]}
{"id": "C80", "title": "Whatever Cookie header arrives, the parsed cookies are bounded and their names clean", "statement": "For every byte string: parse_cookies either throws or returns entries whose names are non-empty, at most 1024 octets, free of control characters, blanks, '=' and ';' and do not start with a dollar sign, and whose values are at most 4096 octets; headers above 16384 octets always throw. (Values are not always free of control characters: a backslash inside quotes lets them through. A value starting with an apostrophe makes the whole header be refused. Names differing only in case are merged. Proved refutations.)", "quantifier": "every byte string, both header kinds", "why_tests_cant": "All inputs, including adversarial ones.", "anchors": ["src/qbm/http/cookie.cpp: parse_cookies", "src/qbm/http/cookie.h: COOKIE_NAME_MAX"]}
{"id": "C81", "title": "Set-Cookie serialization cannot be injected into and reads back unchanged", "statement": "For every Cookie object: to_header throws exactly when the name is not a token or the value, Domain or Path holds a semicolon or control character; otherwise the text has no control character, and parse_set_cookie of it returns the same name, Expires, Max-Age, Secure, HttpOnly and SameSite, and the same value, Domain and Path up to blanks at their ends and one pair of surrounding double quotes (exactly the same cookie when there are none). So no content of the value, Domain or Path can add or alter an attribute.", "quantifier": "every Cookie object (Expires in years 1000-9999, Max-Age an int)", "why_tests_cant": "The texts are arbitrary strings; injection is about all of them.", "anchors": ["src/qbm/http/cookie.cpp: Cookie::to_header", "src/qbm/http/cookie.cpp: parse_set_cookie", "src/qbm/http/cookie.cpp: validate_cookie_for_serialization"]}
{"id": "C82", "title": "A cookie jar holds the last cookie added under each name", "statement": "After any history of additions and removals, looking a name up in any case returns the cookie most recently added under that name unless it was removed since, and operations on one name never affect another.", "quantifier": "every history of operations, every name", "why_tests_cant": "Histories are unbounded.", "anchors": ["src/qbm/http/cookie.h: CookieJar", "src/qbm/http/cookie.cpp: CookieJar::add"]}
{"id": "C83", "title": "HTTP/1.1: a serialized request is read back exactly, whatever follows", "statement": "Writing a Request to an output buffer appends octets that an RFC 9112 reader, placed on the connection with arbitrary octets following, cuts into exactly that method, request target, version, the given header fields (values without surrounding blanks) plus at most a content-length field, and exactly the given body, leaving exactly the following octets; the reader's result is unique, so no header or body content can inject or smuggle anything. Exceptions found: a chunked request with an empty body lacks its last chunk and has no end; the request target is copied unchecked.", "quantifier": "all requests (methods, targets, header maps, bodies), all prior buffer contents, all following octets", "why_tests_cant": "ranges over every header set, body and neighbouring message; smuggling shows only in adversarial combinations", "anchors": ["request.cpp:pipe<char>::put<Request>", "body.cpp:put<Chunk>"]}
{"id": "C84", "title": "HTTP/1.1: exactly the unsendable messages are refused", "statement": "Serialization of a Request or Response succeeds if and only if every header is a token name of at most 1024 octets with a value of at most 8192 visible/blank/tab/high octets, the framing headers are consistent (no Transfer-Encoding other than one chunked, not together with Content-Length, all Content-Length values the same number and equal to the body size - for responses when there is a body), the status allows the body and framing, and the size limits hold; otherwise it throws and the buffer is left empty (also of messages queued earlier: a limit).", "quantifier": "all requests and responses with any headers and bodies, all buffer contents", "why_tests_cant": "the accept/refuse boundary involves every combination of header values, statuses and sizes", "anchors": ["request.cpp:put<Request>, declared_content_length, transfer_encoding", "response.cpp:put<Response>"]}
{"id": "C85", "title": "HTTP/1.1: a serialized response is read back exactly, whatever follows", "statement": "Writing a Response appends octets that an RFC 9112 reader cuts into exactly that version, status, reason, the given fields (plus at most a content-length) and exactly the body, and that end where the following octets begin: responses stay in step on a keep-alive connection. Exceptions found: chunked with an empty body, and an empty body under a declared non-zero length (only right for HEAD).", "quantifier": "all responses, all prior buffer contents, all following octets", "why_tests_cant": "desynchronisation depends on pairs of messages and on arbitrary content", "anchors": ["response.cpp:pipe<char>::put<Response>"]}
{"id": "C86", "title": "HTTP/1.1: streamed chunks add up to the body", "statement": "Writing any sequence of non-empty Chunks followed by the empty Chunk produces octets that decode under the chunked transfer coding to the concatenation of the chunks, ending exactly where the next octets begin.", "quantifier": "all sequences of chunks of all sizes and contents (including CR LF and digits)", "why_tests_cant": "chunk sizes and contents are unbounded", "anchors": ["body.cpp:pipe<char>::put<Chunk>", "chunk.h:Chunk"]}
{"id": "C87", "title": "HTTP/1.1 input is independent of how reads slice it", "statement": "Whatever octets arrive on an HTTP/1.1 connection (server or client side), the sequence of messages handed to the application, their contents, and whether the connection is still up depend only on the octets, not on how the transport cut them into reads (as long as no single read exceeds 16 MiB).", "quantifier": "all octet streams and any two ways of cutting them into reads; any tokenizer in the place of llhttp", "why_tests_cant": "the ways of cutting a stream are exponentially many and interact with every parser state", "anchors": ["src/qbm/http/1.1/protocol/base.h:getMessageSize", "src/qbm/http/1.1/protocol/base.h:on_header_field", "src/qbm/http/1.1/protocol/base.h:on_body"]}
{"id": "C88", "title": "Received messages respect the documented limits", "statement": "Every message handed to the application has a target of at most 8192 octets, at most 100 header fields (plus at most one empty Content-Type the library adds), names of at most 1024 and values of at most 8192 octets, and a body of at most 100 MiB, whatever is received and whether framed by length, chunks or connection close.", "quantifier": "all octet streams, all reads, requests and responses, also at connection close", "why_tests_cant": "limits must hold across all fragmentations, pipelining depths and framings", "anchors": ["src/qbm/http/1.1/protocol/base.h:MAX_HEADERS_COUNT", "src/qbm/http/1.1/protocol/base.h:on_url", "src/qbm/http/1.1/protocol/base.h:on_headers_complete", "src/qbm/http/1.1/protocol/base.h:flush_eof"]}
{"id": "C89", "title": "A received message never carries both Transfer-Encoding and Content-Length", "statement": "A message handed to the application that has a Transfer-Encoding field has exactly the one coding chunked in it and no Content-Length field (no request-smuggling ambiguity). Proved when the message has no trailer section; refuted in general, since trailer fields are entered into headers() after the check.", "quantifier": "all octet streams and reads; any tokenizer", "why_tests_cant": "the combination can come from any order, case and repetition of fields, and from trailers", "anchors": ["src/qbm/http/1.1/protocol/base.h:on_headers_complete", "src/qbm/http/1.1/protocol/base.h:is_supported_transfer_encoding"]}
{"id": "C90", "title": "HTTP/1.1 message framing and pipelining", "statement": "A message with a declared length is delivered with exactly that many body octets, a chunked one with exactly the octets of its chunks, one answering HEAD with none, a response without length with everything up to the close; its target and fields are the ones received; the octets after it are treated exactly as the start of a new connection, so any number of pipelined messages is delivered in order, one each, none lost or merged.", "quantifier": "all header sections, bodies, following octets and reads; any number of pipelined messages", "why_tests_cant": "unbounded pipelines with arbitrary slicing and every framing kind mixed", "anchors": ["src/qbm/http/1.1/protocol/base.h:getMessageSize", "src/qbm/http/1.1/protocol/base.h:flush_eof", "src/qbm/http/1.1/protocol/server.h:onMessage", "src/qbm/http/1.1/protocol/client.h:onMessage"]}
{"id": "C91", "title": "A header attribute list is parsed exactly", "statement": "parse_header_attributes accepts exactly the texts of at most 65536 octets made of name, name=value and name=\"quoted\" (or 'quoted') attributes separated by ';' or ',', and a lookup in the result finds the value of the first attribute of that name (without regard to case), with backslash escapes resolved; no name or value found has a control character (tab excepted) or exceeds 1024 / 8192 octets", "quantifier": "every octet string", "why_tests_cant": "the grammar has quoting, escapes, blanks and two separators; tests can only try some texts", "anchors": ["src/qbm/http/headers.cpp parse_header_attributes", "src/qbm/http/headers.h ATTRIBUTE_NAME_MAX"]}
{"id": "C92", "title": "content_type() always agrees with the Content-Type header", "statement": "After any sequence of add_header, set_header, set_content_type and remove_header, header(name, i) is the i-th value added for that name since it was last set or removed (names without regard to case), and content_type() is the media type and charset of the first Content-Type value, or of the default when there is none", "quantifier": "every history of header operations and every lookup", "why_tests_cant": "the parsed content type is a cache that must stay coherent through every history", "anchors": ["src/qbm/http/headers.h THeaders add_header set_header remove_header header", "src/qbm/http/headers.cpp ContentType::parse"]}
{"id": "C93", "title": "The content coding chosen is one the peer asks for", "statement": "For every Accept-Encoding value, content_encoding returns a supported coding asked for (by name with non-zero weight, or by a wildcard not preceded by an exclusion of it) by the first element that asks for a supported one, and none when no element does; a coding excluded by q=0 is not chosen, and weights are respected", "quantifier": "every Accept-Encoding value and every list of supported codings", "why_tests_cant": "tests fix a few header values; order, weights and wildcards combine freely", "anchors": ["src/qbm/http/headers.cpp content_encoding parse_accept_encoding_q parse_qvalue_milli"]}
{"id": "C94", "title": "Each request's callback is called exactly once", "statement": "In every history of the HTTP/1.1 client, whatever the callbacks do, the callback of a push_request is called at most once per push; when control is back with the event loop every push has been called back or is still held (active or queued); and the statistics count the pushes, the responses from the peer and the local failures exactly", "quantifier": "every sequence of API calls (also from inside callbacks), events, exceptions and returns", "why_tests_cant": "re-entrant callbacks, timers and disconnects interleave without bound", "anchors": ["src/qbm/http/1.1/client.cpp Client::push_request process_pending_requests fail_active_request fail_all_pending handle_response", "src/qbm/http/1.1/client.h Client"]}
{"id": "C95", "title": "One request is in flight, in order", "statement": "Requests are written in the order in which they were pushed, each at most once, and between two writes the callback of the first has been called", "quantifier": "every history of the client", "why_tests_cant": "order must survive every interleaving of failures, reconnects and re-entrant pushes", "anchors": ["src/qbm/http/1.1/client.cpp process_pending_requests send_request"]}
{"id": "C96", "title": "The client holds a bounded number of requests", "statement": "The client never holds more requests than the largest limit it was ever given, and a push at the limit is answered 503 at once", "quantifier": "every history of the client", "why_tests_cant": "the bound is an invariant of all histories", "anchors": ["src/qbm/http/1.1/client.cpp push_request", "src/qbm/http/1.1/client.h set_max_pending_requests"]}
{"id": "C97", "title": "A batch callback gets each request's own response, once", "statement": "The callback of push_requests is called at most once, with at place j the response given to the j-th request; when control is back with the loop it has been called unless one of its requests is still held; an empty batch is called at once", "quantifier": "every history of the client, any number of batches", "why_tests_cant": "completion order and re-entrancy vary without bound", "anchors": ["src/qbm/http/1.1/client.cpp push_requests", "src/qbm/http/1.1/client.h BatchRequestContext"]}
{"id": "C98", "title": "A connect callback is called at most once", "statement": "Every callback passed to connect() is called at most once per call, and until it is called it stays stored", "quantifier": "every history of the client", "why_tests_cant": "the stored list is moved out and re-entered from callbacks", "anchors": ["src/qbm/http/1.1/client.cpp connect handle_connection_success handle_connection_failure"]}
{"id": "C99", "title": "A response is handed to the request it answers", "statement": "If the peer sends at most one message per request written, then every response handed to a callback is the i-th message of a connection on which that callback's request was the i-th written", "quantifier": "every history, every polite peer", "why_tests_cant": "the pairing must hold across reconnects, timeouts and half-closed connections", "anchors": ["src/qbm/http/1.1/client.cpp handle_response handle_timeout handle_disconnected", "connection::on"]}
{"id": "C100", "title": "disconnect() settles everything", "statement": "When disconnect(), called from outside any callback, has returned, every request ever pushed (those pushed by the callbacks it ran included) has been called back, nothing is held, and the connection is gone", "quantifier": "every state in which it is called and every behaviour of the callbacks", "why_tests_cant": "callbacks may push, connect and disconnect again, to any depth", "anchors": ["src/qbm/http/1.1/client.cpp disconnect fail_active_request fail_all_pending"]}
{"id": "C101", "title": "Nothing is written on a connection after its announced close", "statement": "After a response with Connection: close no request is written to that connection", "quantifier": "every history of the client", "why_tests_cant": "the flag must survive every interleaving", "anchors": ["src/qbm/http/1.1/client.cpp handle_response process_pending_requests"]}
{"id": "C102", "title": "A connection outlives its own dispatch", "statement": "A connection object is not destroyed while one of its own event handlers is running", "quantifier": "every history of the client", "why_tests_cant": "destruction is deferred by a depth counter; a wrong order is a use after free only in some interleavings", "anchors": ["src/qbm/http/1.1/client.cpp callback_scope reset_connection_when_safe reset_deferred_connection_if_ready create_connection"]}
{"id": "C103", "title": "A queued request times out", "statement": "If request timeouts are on, every queued request has its timer armed, and when the timer fires the request is taken out of the queue and its callback called with 408", "quantifier": "every history of the client", "why_tests_cant": "a request must not be stranded by any interleaving", "anchors": ["src/qbm/http/1.1/client.cpp schedule_pending_timeout fail_pending_request"]}
{"id": "C104", "title": "Requests go only to the client's own origin", "statement": "Two URIs are of the same origin exactly if scheme and host agree up to ASCII case and both have the same valid effective port; every request written is for the origin of the client's base URI; a push for another origin is answered 400 and never queued", "quantifier": "every URI and every history", "why_tests_cant": "the URI space is unbounded", "anchors": ["src/qbm/http/origin.cpp same effective_port_number", "src/qbm/http/1.1/client.cpp prepare_request ensure_absolute_uri"]}
{"id": "C105", "title": "Multipart bodies are delivered exactly, however they arrive", "statement": "For a well-formed multipart body (delimiter lines, header lines with a colon, part bodies that do not contain the delimiter, closing delimiter), cut into any pieces, the parser's callbacks deliver exactly the parts: names, values, header ends, part data and the end, in order and nothing else; after any prefix what was delivered is the corresponding prefix and depends only on the bytes, not on the cuts", "quantifier": "every valid boundary, every well-formed body, every way of cutting it (including through delimiters)", "why_tests_cant": "the lookbehind logic has to be right for every position of every cut; tests try a few", "anchors": ["src/qbm/http/multipart.cpp MultipartParser::feed processPartData", "src/qbm/http/multipart.h MultipartParser"]}
{"id": "C106", "title": "A Multipart put into a body reads back", "statement": "Writing a Multipart (at least one and at most 1000 parts, bodies without the delimiter, values without leading space, at most one Content-Type value per part) into a Body and reading it with as<Multipart> gives the same boundary and as many parts, each with the same body and the same values for every header name; content_length() is the length of what is written", "quantifier": "every boundary, every list of parts", "why_tests_cant": "an equation between writer and reader for all part lists", "anchors": ["src/qbm/http/multipart.cpp pipe::put<Multipart>", "src/qbm/http/multipart.h content_length", "src/qbm/http/body.cpp MultipartReader Body::as<Multipart>"]}
{"id": "C107", "title": "The multipart parser stays in its buffers and stops", "statement": "A call of feed with any bytes, by a caller that stops after the end callback, terminates, never reads or writes outside the input, the boundary or the lookbehind buffer, never gives a callback a reversed range, and returns or throws leaving the parser in error", "quantifier": "every boundary string, every byte string, every sequence of calls", "why_tests_cant": "memory safety for all inputs", "anchors": ["src/qbm/http/multipart.cpp MultipartParser::feed processPartData setBoundary"]}
{"id": "C108", "title": "What as<Multipart> returns respects the limits", "statement": "Whatever the body, a Multipart returned by as<Multipart> has at most 1000 parts, header names of at most 1024 and values of at most 8192 octets, part bodies of at most 100 MiB together, and a boundary of 1 to 70 octets without controls", "quantifier": "every byte string", "why_tests_cant": "limits must hold for all inputs", "anchors": ["src/qbm/http/body.cpp MultipartReader Body::as<Multipart>", "src/qbm/http/multipart.h multipart_limits"]}
{"id": "C109", "title": "A wrong first line is an error, and errors stay", "statement": "If the input leaves the first delimiter line at any octet the parser reports an error, however the input is cut; once in error it ignores all further input", "quantifier": "every boundary, every input, every cut", "why_tests_cant": "every position at which the input may go wrong", "anchors": ["src/qbm/http/multipart.cpp MultipartParser::feed"]}
{"id": "C110", "title": "The boundary parameter is the one the header gives", "statement": "parse_boundary returns a boundary exactly if the media type is multipart/form-data up to case and the first boundary attribute of the header is a valid RFC 2046 boundary (1-70 allowed characters, not ending in a space), and then returns that; it returns nothing exactly if the type is another one or the attributes parse and the boundary is missing or empty; in all other cases it throws", "quantifier": "every octet string", "why_tests_cant": "an iff over all header values", "anchors": ["src/qbm/http/multipart.cpp parse_boundary is_valid_multipart_boundary"]}
{"id": "C111", "title": "Only allowed origins are granted cross-origin access", "statement": "With the CORS middleware, a response gains Access-Control-Allow-Origin exactly if the request carries a non-empty Origin of at most 2048 octets that the configured policy (list, patterns or function) admits; the value is that origin, or * when the list contains * and credentials are off. Requests without Origin are left untouched; a refused origin changes nothing but adds Origin to Vary", "quantifier": "every configuration history, every request and response, any matching engine", "why_tests_cant": "a security decision over all origins and all policies", "anchors": ["src/qbm/http/middleware/cors.h CorsMiddleware::process CorsOptions::is_origin_allowed"]}
{"id": "C112", "title": "Credentials are never combined with a wildcard origin", "statement": "Access-Control-Allow-Credentials: true is added exactly for admitted origins under a configuration that allows credentials, and then Access-Control-Allow-Origin is the request's own origin and never *; the permissive preset never allows credentials, the secure preset grants only listed origins", "quantifier": "every configuration history, every request and response", "why_tests_cant": "a security decision over all configurations", "anchors": ["src/qbm/http/middleware/cors.h CorsMiddleware::process CorsOptions::permissive CorsOptions::secure"]}
{"id": "C113", "title": "Caches are told that the answer depends on the origin", "statement": "Whenever a request carries a non-empty Origin, granted or refused, the response's Vary gains Origin after the values it had; the preflight fields are added exactly for admitted preflight requests", "quantifier": "every configuration history, every request and response", "why_tests_cant": "must hold on every path through the middleware", "anchors": ["src/qbm/http/middleware/cors.h CorsMiddleware::process"]}
{"id": "C114", "title": "Preflights are answered by the middleware, other requests pass", "statement": "A request that is not a preflight from an admitted origin continues down the chain with status, body and all but the four CORS fields unchanged; a preflight from an admitted origin never reaches the handlers: it is answered with an empty body and 204, the configured methods and maximum age if the requested method is allowed (case-insensitively), and 403 without any of those fields otherwise", "quantifier": "every configuration history, every request and response", "why_tests_cant": "all combinations of method, origin and configuration", "anchors": ["src/qbm/http/middleware/cors.h CorsMiddleware::process handle_preflight"]}
{"id": "C115", "title": "Only configured request headers are approved", "statement": "A preflight's Access-Control-Request-Headers is answered with exactly those of the asked names, in order, that equal a configured name up to case; without that field all configured names are listed", "quantifier": "every configuration, every header text", "why_tests_cant": "a filter over arbitrary lists", "anchors": ["src/qbm/http/middleware/cors.h handle_preflight"]}
{"id": "C116", "title": "CORS options mean what was last set", "statement": "The outcome for every request depends only on the settings a sequence of configuration calls asks for (last call of each kind wins, questions change nothing), not on the order of the other calls, nor on the requests served in between; of the patterns only the first hundred, of at most 1024 characters, count", "quantifier": "every sequence of configuration calls and requests", "why_tests_cant": "histories of configuration and lazily compiled patterns", "anchors": ["src/qbm/http/middleware/cors.h CorsOptions"]}
{"id": "C117", "title": "Security headers are sent with the configured values", "statement": "When the response is sent, every configured security header appears exactly once with its configured value, replacing what handlers set; Strict-Transport-Security only for requests with the scheme https; all other fields are unchanged; applying the middleware twice gives the same fields as once", "quantifier": "every set of options, every response", "why_tests_cant": "all combinations of eleven optional headers", "anchors": ["src/qbm/http/middleware/security_headers.h"]}
{"id": "C118", "title": "The CSP nonce is fresh text of the right form and is in the policy", "statement": "With nonces enabled and no policy given, the request's context holds a nonce of 32 lower-case hexadecimal digits and the policy sent names exactly that nonce for scripts and styles; nonce lengths are clamped to 16..128; a policy of the application's own is sent verbatim", "quantifier": "every set of options, every random source giving hexadecimal digits, every response", "why_tests_cant": "relates two phases of the middleware for all options", "anchors": ["src/qbm/http/middleware/security_headers.h generate_random_nonce"]}
{"id": "C119", "title": "The response coding is the client's best among the server's", "statement": "The compression middleware uses the configured coding to which the request's Accept-Encoding gives the greatest weight (first match by name, else the wildcard), the earliest configured on a tie; a coding with weight 0 or not accepted is never used", "quantifier": "every Accept-Encoding text, every list of configured codings", "why_tests_cant": "an optimum over all header texts", "anchors": ["src/qbm/http/middleware/compression.h select_best_encoding"]}
{"id": "C120", "title": "A compressed response is whole, labelled and smaller", "statement": "The hook leaves status alone and either changes nothing, or replaces the body by the complete compressed form - shorter than the original, which was at least the configured minimum and carried no Content-Encoding - with Content-Encoding, Content-Length and Vary right and all other fields unchanged, or (not shorter) keeps the body and drops Content-Length. It compresses whenever the conditions are met and never for precompressed types", "quantifier": "every body, header set, Accept-Encoding text and every library that meets the streaming contract", "why_tests_cant": "quantifies over all bodies and all ways the library may cut its output", "anchors": ["src/qbm/http/body.cpp Body::compress", "src/qbm/http/middleware/compression.h compress_response_body"]}
{"id": "C121", "title": "Decompression cannot exhaust memory", "statement": "Body::uncompress never returns a decompressed body of more than 100 MiB whatever the library does; with a library that meets the streaming contract it ends, never allocates more than 100 MiB plus twice the input, and returns exactly the decompressed form or throws", "quantifier": "every body, every library that meets the contract", "why_tests_cant": "an attacker chooses the input; a bound for all inputs and loop iterations", "anchors": ["src/qbm/http/body.cpp Body::uncompress"]}
{"id": "C122", "title": "Handlers see decompressed requests or do not run", "statement": "A request with a body and a Content-Encoding naming one coding reaches the next handler only with the decompressed body, without the label and with Content-Length corrected if present (at most 100 MiB); otherwise the chain stops with 400 (unreadable or unknown) or 500 (too large). Requests without label or body are passed unchanged", "quantifier": "every request, every library that meets the contract", "why_tests_cant": "all bodies, all failures", "anchors": ["src/qbm/http/middleware/compression.h process decompress_request_body"]}
{"id": "C123", "title": "What is compressed on one side is recovered on the other", "statement": "If the decompressor inverts the compressor, a message whose body went through the response hook and then through the request side, with the headers as sent, has its original body again whenever it is let through", "quantifier": "every body, headers, Accept-Encoding text and configuration", "why_tests_cant": "a round trip over all bodies, through both loops", "anchors": ["src/qbm/http/middleware/compression.h", "src/qbm/http/body.cpp"]}
{"id": "C124", "title": "Schema validation decides satisfaction", "statement": "SchemaValidator::validate returns true exactly for the values that satisfy the schema, keyword by keyword (type, enum, sizes, limits, pattern, uniqueItems, properties, required, additionalProperties, propertyNames, items, additionalItems, allOf, anyOf, oneOf, not)", "quantifier": "every schema nested less than 64 deep, every JSON value, every regular expression engine and error policy", "why_tests_cant": "all schemas and values, with arbitrary nesting of combinators", "anchors": ["src/qbm/http/validation/schema_validator.cpp validate validate_recursive", "src/qbm/http/validation/rule.cpp"]}
{"id": "C125", "title": "Errors are reported exactly for invalid values", "statement": "validate keeps the errors already in the result and adds at least one exactly when the value does not satisfy the schema; errors of failed alternatives of anyOf, oneOf and not do not leak", "quantifier": "every schema nested less than 64 deep, every value, every previous result", "why_tests_cant": "all combinations of nested alternatives", "anchors": ["src/qbm/http/validation/schema_validator.cpp", "src/qbm/http/validation/error.cpp"]}
{"id": "C126", "title": "Usable schemas never make validation throw", "statement": "If every pattern in the schema is a regular expression of at most 1024 octets and exclusive limits are flags, validate returns normally for every value", "quantifier": "every usable schema nested less than 64 deep, every value, every state of the result", "why_tests_cant": "all values at all nestings", "anchors": ["src/qbm/http/validation/schema_validator.cpp"]}
{"id": "C127", "title": "Errors reveal no more than the policy allows", "statement": "The offending values in the errors follow the policy: nothing under None, at most the chosen number of octets of a text under Preview; the number is clamped to 16..65536", "quantifier": "every schema, value and policy", "why_tests_cant": "every error, from every rule at every depth", "anchors": ["src/qbm/http/validation/error.cpp set_error_value_policy", "src/qbm/http/validation/schema_validator.cpp"]}
{"id": "C128", "title": "A sanitizer changes the strings its path names and nothing else", "statement": "After sanitize, every string at a place named by rules is the result of their functions in order, every other value is as before, and objects and arrays keep their keys, order and sizes; a path is read as names after dots and numbers or * in brackets", "quantifier": "every list of rules and functions, every document, every path", "why_tests_cant": "all documents and wildcards", "anchors": ["src/qbm/http/validation/sanitizer.cpp sanitize traverse_and_apply split_path"]}
{"id": "C129", "title": "The text sanitizers do what they are called", "statement": "trim removes exactly the surrounding white space, normalize_whitespace leaves the words separated by single spaces, upper and lower case change ASCII letters only, alphanumeric_only keeps exactly the ASCII letters and digits", "quantifier": "every text", "why_tests_cant": "all texts", "anchors": ["src/qbm/http/validation/sanitizer.cpp PredefinedSanitizers"]}
{"id": "C130", "title": "HTML escaping is safe and shows the original", "statement": "The escaped text contains no markup character (< > quotation marks) and is displayed as the original text, and as nothing else", "quantifier": "every text", "why_tests_cant": "all texts", "anchors": ["src/qbm/http/validation/sanitizer.cpp escape_html"]}
{"id": "C131", "title": "Stripping tags removes tags and comments and nothing else", "statement": "strip_html_tags removes tags (with > inside quoted attribute values), comments and an unterminated tag at the end, keeps the order of what is left, leaves texts without < alone, and without two consecutive < the result contains no tag opening", "quantifier": "every text", "why_tests_cant": "all texts, all nestings of quotes and tags", "anchors": ["src/qbm/http/validation/sanitizer.cpp strip_html_tags"]}
{"id": "C132", "title": "LIKE escaping makes a pattern match only the text", "statement": "As an SQL literal the escaped text is a LIKE pattern matching exactly the original text, if that has no backslash", "quantifier": "every text without backslash", "why_tests_cant": "all texts and all strings they could match", "anchors": ["src/qbm/http/validation/sanitizer.cpp escape_sql_like"]}
{"id": "C133", "title": "A parameter is read as the value it denotes", "statement": "Coercion of a query, header or path parameter yields exactly the value the text denotes in the declared type (integers in the 64-bit range with an optional minus sign; numbers, whole ones in range as integers, exactly; true/false/1/0 without regard to case) and fails for every other text", "quantifier": "every text, every declared type, every conversion of decimal texts to doubles", "why_tests_cant": "all texts, all doubles including the boundaries 2^53 and 2^63", "anchors": ["src/qbm/http/validation/parameter_validator.cpp parse_value"]}
{"id": "C134", "title": "A request is valid exactly if it meets every rule", "statement": "validate returns true exactly if every sanitizer worked and the request as it is then meets the body schema and every parameter rule: each occurrence of a defined parameter is acceptable, an absent one has an acceptable default or is optional, and in strict mode there are no others. Errors are added exactly when it returns false, and earlier errors are kept", "quantifier": "every configuration whose rules report what they reject, every request and path parameters", "why_tests_cant": "all combinations of rules, occurrences and sanitizers", "anchors": ["src/qbm/http/validation/request_validator.cpp validate", "src/qbm/http/validation/parameter_validator.cpp validate_single"]}
{"id": "C135", "title": "Request validation does not throw", "statement": "If the body schema is usable and sanitized documents can be written, validate returns normally, whatever custom parsers, rules and sanitizers throw", "quantifier": "every configuration and request", "why_tests_cant": "all requests and all exceptions of application code", "anchors": ["src/qbm/http/validation/request_validator.cpp validate"]}
{"id": "C136", "title": "Invalid requests are answered with 400 and do not reach handlers", "statement": "The middleware lets a request through exactly if it is valid, with the sanitized values; otherwise the response is 400 in JSON listing at least one error, and the chain ends", "quantifier": "every configuration and request", "why_tests_cant": "all requests", "anchors": ["src/qbm/http/middleware/validation.h process", "src/qbm/http/validation/request_validator.cpp"]}
{"id": "C137", "title": "Error values follow the policy of the request validator", "statement": "Without a body schema, the errors of a request (sanitizers, query, header and path parameters) show no more of the values than the policy allows", "quantifier": "every configuration with rules that leave values to the policy, every request", "why_tests_cant": "every error path", "anchors": ["src/qbm/http/validation/request_validator.cpp set_error_value_policy validate"]}
{"id": "C138", "title": "Registering a parameter replaces its rules", "statement": "Registering rules for a name replaces those under the same name up to case and leaves all others as they were", "quantifier": "every sequence of registrations, every name", "why_tests_cant": "all names and spellings", "anchors": ["src/qbm/http/validation/parameter_validator.cpp add_param", "src/qbm/http/validation/request_validator.cpp for_query_param for_header for_path_param"]}
{"id": "C139", "title": "The token in the Authorization header is exactly what follows the scheme", "statement": "The authentication manager takes from a header value exactly the text after blanks, the configured scheme in any letter case and at least one blank, without the blanks after it; every other header value gives no token", "quantifier": "every header value, every scheme that does not begin with a blank", "why_tests_cant": "all octet strings and all schemes", "anchors": ["src/qbm/http/auth/manager.cpp Manager::extract_token_from_header"]}
{"id": "C140", "title": "A signed token is accepted only under the configured algorithm, key and checks", "statement": "With signature verification on, verify_token yields a user exactly when the JWT library validates the token for the configured algorithm, the secret (HMAC) or the public key (all others), the configured expiry, not-before, tolerance, issuer and audience checks, and the validated claims describe that user", "quantifier": "every token, every sequence of option settings, every behaviour of the JWT library", "why_tests_cant": "all tokens, configurations and library behaviours", "anchors": ["src/qbm/http/auth/manager.cpp Manager::verify_token", "src/qbm/http/auth/options.h Options"]}
{"id": "C141", "title": "An unsigned token is accepted exactly when its claims pass", "statement": "With signature verification off, verify_token yields a user exactly when the token decodes to an object whose exp and nbf, where present and checked, lie on the right side of the clock with the tolerance, whose issuer and audience are the configured ones where configured, and which describes that user", "quantifier": "every token, every clock reading, every sequence of option settings", "why_tests_cant": "all claim values including malformed and extreme times", "anchors": ["src/qbm/http/auth/manager.cpp Manager::verify_token parse_time_claim_as_int64 decode_unverified_payload"]}
{"id": "C142", "title": "The user is the one the claims describe", "statement": "The user of a token has the text claims sub and username as id and name (at least one not empty), the role texts up to the first item that is none, and the metadata entries as texts, whether roles and metadata come as JSON or as its text", "quantifier": "every payload", "why_tests_cant": "all JSON payloads", "anchors": ["src/qbm/http/auth/manager.cpp Manager::verify_token"]}
{"id": "C143", "title": "A token handed out names the user and comes back as the same user", "statement": "generate_token signs with the key of the configured algorithm a payload with exactly the user's id, name, roles, metadata, the time, the expiry if checked and the configured issuer and audience; verify_token with the same options yields the same user again as long as the library validates the token and neither id nor name is the text of a JSON value", "quantifier": "every user, every configuration, every clock", "why_tests_cant": "all users and configurations", "anchors": ["src/qbm/http/auth/manager.cpp create_payload_json Manager::generate_token Manager::verify_token"]}
{"id": "C144", "title": "Any and all roles mean what they say", "statement": "has_any_role holds exactly if one of the listed roles is among the user's, has_all_roles exactly if every one is; the empty list is satisfied by all but not by any", "quantifier": "every user, every list of roles", "why_tests_cant": "all lists", "anchors": ["src/qbm/http/auth/user.cpp User::has_any_role User::has_all_roles", "src/qbm/http/auth/user.h User::has_role"]}
{"id": "C145", "title": "Options are those last set, algorithms are known by name only, and keys go to the right slot", "statement": "Every option has the value of the last call that set it; issuer and audience are checked exactly if they are not empty; algorithm names are recognised in any case and nothing else is; jwt_auth_middleware takes its argument for an HMAC secret exactly if an HMAC algorithm is named, for a public key if another known algorithm is, and throws otherwise", "quantifier": "every sequence of settings, every name and key", "why_tests_cant": "all sequences of calls and all names", "anchors": ["src/qbm/http/auth/options.h Options", "src/qbm/http/auth/options.cpp Options::algorithm_from_string", "src/qbm/http/middleware/auth.h jwt_auth_middleware"]}
{"id": "C146", "title": "The authentication middleware admits exactly the known users with the roles", "statement": "A request goes on with the user stored in the context exactly if the context or else the token of the header establishes a user who has the required roles; a user without them gets 403; without a user the answer is 401, except that a request with no header goes on unchanged when authentication is optional", "quantifier": "every request, context and configuration, every behaviour of the libraries", "why_tests_cant": "all combinations of context, header and configuration", "anchors": ["src/qbm/http/middleware/auth.h AuthMiddleware::process user_from_jwt_payload handle_auth_error"]}
{"id": "C147", "title": "The JWT middleware finds the token exactly where it was told to look", "statement": "The token is the text after the scheme and a space in the named header (the whole trimmed value without a scheme), or the non-empty value of the named cookie or query parameter; otherwise there is none", "quantifier": "every request and configuration", "why_tests_cant": "all requests", "anchors": ["src/qbm/http/middleware/jwt.h JwtMiddleware::extract_token"]}
{"id": "C148", "title": "The JWT middleware stops every request without a valid token, and says why", "statement": "A request goes on, its claims stored in the context, exactly if a token is found, the library validates it for the configured algorithm, key and checks, iat is not in the future, all required claims are present and the validator accepts; any other request is stopped with nothing stored: the error handler is told the reason, and without one or if it throws the answer is 401 with the reason; a throwing success handler means 500", "quantifier": "every request, configuration and callback behaviour", "why_tests_cant": "all tokens and all callbacks", "anchors": ["src/qbm/http/middleware/jwt.h JwtMiddleware::process verify_token handle_error"]}
{"id": "C149", "title": "Claims are handed on as typed values", "statement": "The claims the JWT middleware hands on are those the library validated: true and false as booleans, integers and finite decimal numbers as numbers, everything else as the text it is", "quantifier": "every token the library validates", "why_tests_cant": "all claim texts", "anchors": ["src/qbm/http/middleware/jwt.h JwtMiddleware::verify_token"]}
{"id": "C150", "title": "The JWT middleware and the authentication middleware work together", "statement": "Behind a JWT middleware that passed a token, the authentication middleware finds the user its claims describe and lets him on with the required roles, and the handlers find both the user and the claims", "quantifier": "every request, both configurations", "why_tests_cant": "all tokens and configurations", "anchors": ["src/qbm/http/middleware/jwt.h JwtMiddleware::process", "src/qbm/http/middleware/auth.h AuthMiddleware::process role_auth_middleware optional_auth_middleware"]}
{"id": "C151", "title": "A form put into a body reads back", "statement": "Assigning a Form to a body and reading the body as a Form gives the same values, in the same order, under every non-empty name, whatever octets names and values contain; fields with the empty name are lost.", "quantifier": "all forms (any names, values, order of the table) and all percent codings that are inverse on octet strings and keep & and = out", "why_tests_cant": "Names and values are arbitrary octet strings and the table order is unspecified.", "anchors": ["src/qbm/http/body.cpp:Body::operator=<Form>, Body::as<Form>", "src/qbm/http/form.h:Form"]}
{"id": "C152", "title": "A form body is read exactly", "statement": "For every body, as<Form> holds exactly the pairs its pieces between ampersands stand for, in order: the name up to the first equals sign and the value after it, both percent-decoded, pieces without an equals sign being names with an empty value, nameless pieces left out; get returns all values of a name in order, get_first the first one.", "quantifier": "all octet sequences, all sequences of add calls", "why_tests_cant": "The input space of bodies is unbounded; tests sample it.", "anchors": ["src/qbm/http/body.cpp:Body::as<Form>", "src/qbm/http/form.h:add, get, get_first"]}
{"id": "C153", "title": "The verification service is asked about exactly the given token", "statement": "Whatever secret and token (also with &, = or % in them), the body sent to the reCAPTCHA service, read as a form, has exactly the fields secret and response (and remoteip if given) with exactly those values: a token cannot inject parameters.", "quantifier": "all secrets, tokens and addresses", "why_tests_cant": "Injection has to be excluded for every token a client may send.", "anchors": ["src/qbm/http/middleware/recaptcha.cpp:build_recaptcha_verification_body"]}
{"id": "C154", "title": "A reCAPTCHA reply admits exactly vouched tokens", "statement": "A reply lets the request pass exactly if its status is 200 and its body is a JSON object with success true whose score meets the mode: ignored for v2, not below the threshold if numeric by default, numeric and not below the threshold for v3. Every other reply (any status, non-JSON, wrong types) is answered with 403 and a JSON text naming the reason.", "quantifier": "all replies, options and thresholds", "why_tests_cant": "Replies come from outside and may be anything.", "anchors": ["src/qbm/http/middleware/recaptcha.h:process, parse_google_recaptcha_response, set_error_response"]}
{"id": "C155", "title": "The reCAPTCHA token is taken from where it was configured", "statement": "The token is the first value of the configured header or query parameter, or, for the body, the text under the field name of a JSON object, or else the first value of that field of the form; a request without a non-empty token is answered with 400 and the service is not asked, otherwise the service is asked once about that token.", "quantifier": "all requests and options", "why_tests_cant": "Requests are arbitrary.", "anchors": ["src/qbm/http/middleware/recaptcha.h:extract_token_from_request, process"]}
{"id": "C156", "title": "Late replies and changed options do not leak between verifications", "statement": "In every interleaving of requests, replies, cancellations and option updates: a request reaches the handlers only on the first reply to its own verification, while it has not ended, and only if the service vouches for its token under the options in force when the request came; such a reply always settles the request, one way or the other.", "quantifier": "all histories of requests, replies, ends and updates", "why_tests_cant": "It is a statement about every interleaving of several requests in flight.", "anchors": ["src/qbm/http/middleware/recaptcha.h:process, update_options"]}
{"id": "C157", "title": "The error handler called is the registered one", "statement": "After any sequence of on_status, on_status_range and on_any_error, an error with a status is given to the last handler registered for that status alone, otherwise to the first range containing it (100 to 599); the general handler is called exactly if there is none or it throws, with the message in the context or else the status; no exception leaves the middleware and the response goes out as the handlers left it.", "quantifier": "all registration histories, statuses and handlers", "why_tests_cant": "Registration order and throwing handlers combine without bound.", "anchors": ["src/qbm/http/middleware/error_handling.h:on_status, on_status_range, on_any_error, process"]}
{"id": "C158", "title": "A conditional middleware is transparent and contains exceptions", "statement": "With a predicate that says yes (no), a chain with the conditional behaves exactly as the chain with its first (second) child in its place, or with a task that just continues if there is no second child; no exception leaves it; if predicate or child throws, the response is marked 500 and the request fails as with complete(ERROR) if still going on, and nothing more happens if it had been answered. A request transformer behaves likewise.", "quantifier": "all chains, children, predicates and executions of them", "why_tests_cant": "It compares all executions of two chains of arbitrary user code.", "anchors": ["src/qbm/http/middleware/conditional.h:process", "src/qbm/http/middleware/transform.h:process"]}
{"id": "C159", "title": "Timing and logging observe without disturbing", "statement": "Whatever happens between, every timing middleware that ran reports once, when the response is sent, the time since the middleware of its name last ran (its own start if names differ), and every logging middleware logs once the final status; a throwing callback changes nothing, and the response keeps its status and all headers but X-Response-Time.", "quantifier": "all sequences of middlewares, handlers' changes and clock readings", "why_tests_cant": "Holds for every order and number of observers and everything handlers do in between.", "anchors": ["src/qbm/http/middleware/timing.h:process", "src/qbm/http/middleware/logging.h:process"]}
{"id": "C160", "title": "The HTTP/2 client never sends more DATA than the server allows", "statement": "At the moment any DATA frame is written, the octets sent so far do not exceed 65535 plus the connection credit received, those on its stream do not exceed the SETTINGS_INITIAL_WINDOW_SIZE in force plus the stream's credit, and the frame is no longer than the SETTINGS_MAX_FRAME_SIZE in force; also after the settings have changed in mid-body.", "quantifier": "all sequences of received frames, of requests made from outside and from inside callbacks (nested), and all iteration orders of the stream map", "why_tests_cant": "Violations need particular interleavings of SETTINGS, WINDOW_UPDATE and several pending bodies; tests see a few of them.", "anchors": ["src/qbm/http/2/protocol/client.h:_send_request_body_data_internal, on(WindowUpdateFrame), update_initial_peer_window_size, try_send_pending_data_for_stream"]}
{"id": "C161", "title": "Request header blocks of any size are cut to the server's frame size", "statement": "Every CONTINUATION frame the client writes, and the HEADERS frame that opens each stream, is no longer than the SETTINGS_MAX_FRAME_SIZE in force at that moment.", "quantifier": "all connection histories and all requests (header lists of any size)", "why_tests_cant": "Sizes and settings are unbounded, and the setting may change between two requests.", "anchors": ["src/qbm/http/2/protocol/client.h:send_request", "src/qbm/http/2/protocol/base.h:send_headers_with_continuation"]}
{"id": "C162", "title": "What the HTTP/2 client writes on a stream is the request", "statement": "For every accepted request, at every moment, the HEADERS and DATA frames written on its stream start with HEADERS, their DATA octets are a prefix of the request body, in order and without repetition, END_STREAM is at most on the last frame, and only once the whole body has been sent.", "quantifier": "all histories in which the application sends requests and does not call send_request_trailers", "why_tests_cant": "The body is cut by windows that change at any time, and sending resumes from several handlers.", "anchors": ["src/qbm/http/2/protocol/client.h:send_request, _send_request_body_data_internal, try_send_pending_data_for_stream"]}
{"id": "C163", "title": "An HTTP/2 request has at most one outcome", "statement": "For each stream the application is told at most once, either the response or an error, and only for a stream on which it made a request.", "quantifier": "all histories, including errors raised while a callback makes new requests", "why_tests_cant": "Double notification needs an error after or during the delivery of a response; the paths are many.", "anchors": ["src/qbm/http/2/protocol/client.h:process_complete_response_if_ready, send_rst_stream, on(RstStreamFrame), on(GoAwayFrame)"]}
{"id": "C164", "title": "A response handed to the application is the one received on that stream", "statement": "Its application id is that of the request made on the stream; its body is the concatenation of the DATA received on the stream, at most 100 MiB; its status is the three digits of the only :status of the first header block, from 100 to 999; its headers are the regular fields of the header blocks in order; END_STREAM was received on the stream or the server has sent GOAWAY; and unless the request was HEAD or the status is 1xx, 204 or 304, each Content-Length is the length of the body.", "quantifier": "all histories of received frames, interleaved over any number of streams", "why_tests_cant": "Mixing of streams, blocks and trailers is combinatorial.", "anchors": ["src/qbm/http/2/protocol/client.h:on(DataFrame), process_incoming_headers, parse_and_validate_headers_into_response, process_complete_response_if_ready"]}
{"id": "C165", "title": "The HTTP/2 client gives back exactly the credit it received data for", "statement": "The credit sent never exceeds the octets received, per stream and for the connection; on a stream the client still holds while the connection is open, fewer than 32767 octets are outstanding, so the server can always go on and has not exceeded the window of 65535.", "quantifier": "all histories, with any padding", "why_tests_cant": "Sums over unbounded histories.", "anchors": ["src/qbm/http/2/protocol/client.h:on(DataFrame), send_window_update, conditionally_send_connection_window_update"]}
{"id": "C166", "title": "A server cannot make the client write replies without end", "statement": "At most 1000 acknowledgements of PING and SETTINGS are written between two pieces of progress (DATA received on an open stream, or a completed response).", "quantifier": "all histories, at every moment", "why_tests_cant": "A flood is an unbounded input.", "anchors": ["src/qbm/http/2/protocol/client.h:on(PingFrame), on(SettingsFrame)"]}
{"id": "C167", "title": "A server cannot make the client store header blocks without end", "statement": "While the connection is open, at most 512 CONTINUATION frames with at most 1 MiB in all have been received since the last HEADERS frame, and the stored part of an unfinished block is at most 1 MiB.", "quantifier": "all histories", "why_tests_cant": "A flood is an unbounded input; blocks may restart on other streams.", "anchors": ["src/qbm/http/2/protocol/client.h:on(ContinuationFrame), process_incoming_headers"]}
{"id": "C168", "title": "GOAWAY is the client's last word", "statement": "The client writes at most one GOAWAY; after it the only frame it may still write is the acknowledgement of a SETTINGS frame, and it accepts no further request.", "quantifier": "all histories, including requests made by the GOAWAY callback itself", "why_tests_cant": "Error paths nest through callbacks.", "anchors": ["src/qbm/http/2/protocol/client.h:send_goaway_and_close, send_request"]}
{"id": "C169", "title": "A closed client connection does nothing any more", "statement": "Once the protocol object is no longer ok, whatever frames still arrive and whatever is requested, nothing is written, no callback is made, and every request is refused.", "quantifier": "all histories and all continuations of them", "why_tests_cant": "All later events are quantified over.", "anchors": ["src/qbm/http/2/protocol/client.h:send_request, on(...)"]}
{"id": "C170", "title": "Every HTTP/2 request gets a fresh stream", "statement": "The stream identifiers of accepted requests are odd and strictly increasing, and no request is accepted once a GOAWAY frame has been received.", "quantifier": "all histories, including requests made inside callbacks", "why_tests_cant": "Requests may be made at any point inside any handler.", "anchors": ["src/qbm/http/2/protocol/client.h:send_request, on(GoAwayFrame)"]}
{"id": "C171", "title": "The client is silent on a stream it has reset", "statement": "After RST_STREAM has been written on a stream, no HEADERS or DATA frame is written on it, although its body may not have been sent.", "quantifier": "all histories", "why_tests_cant": "Pending bodies are resumed from WINDOW_UPDATE and SETTINGS handlers at any later time.", "anchors": ["src/qbm/http/2/protocol/client.h:send_rst_stream, try_send_pending_data_for_stream"]}
{"id": "C172", "title": "The HTTP/2 client protocol never uses a stream context that is gone", "statement": "No sequence of frames and requests makes the client read or write a stream context after it was erased (also when callbacks make requests that insert new ones), run past its loops or index the HPACK tables out of range.", "quantifier": "all frame sequences with arbitrary contents, all requests, nested callbacks; not send_request_trailers", "why_tests_cant": "Use after erase needs the callback to act at the worst moment.", "anchors": ["src/qbm/http/2/protocol/client.h:send_rst_stream, process_complete_response_if_ready, on(GoAwayFrame), try_send_pending_data_for_stream"]}
{"id": "C173", "title": "Server push is refused with a connection error", "statement": "A PUSH_PROMISE received on an open connection makes the client write GOAWAY with PROTOCOL_ERROR as its very next action, close the connection and refuse what its callbacks request.", "quantifier": "all histories and all PUSH_PROMISE frames", "why_tests_cant": "The state of the connection is arbitrary.", "anchors": ["src/qbm/http/2/protocol/client.h:on(PushPromiseFrame)"]}
{"id": "C174", "title": "HTTP/2 client: the server's limit on concurrent streams is respected", "statement": "The client opens the stream of a request only when fewer streams are open than the SETTINGS_MAX_CONCURRENT_STREAMS value of the server in force at that moment. A stream is open from the acceptance of its request until RST_STREAM has been sent or received on it or END_STREAM has been sent and received. A request that would exceed the limit is refused to the application and nothing is written for it. Consequently there are never more open streams than the limit in force when the newest of them was opened.", "quantifier": "Every sequence of frames from the server (SETTINGS changing the limit at any time included), requests of the application and requests made from callbacks, as long as 31-bit stream identifiers are left.", "why_tests_cant": "The count is kept implicitly in the states of all stream contexts, changed by every kind of frame in both directions; that it never undercounts is an invariant over all histories, which no finite set of tests settles.", "anchors": ["src/qbm/http/2/protocol/client.h:send_request", "src/qbm/http/2/protocol/client.h:get_active_stream_count", "src/qbm/http/2/protocol/client.h:try_close_stream_context", "src/qbm/http/2/protocol/client.h:process_incoming_headers"]}
{"id": "C175", "title": "HTTP/2 client: the receive windows it advertises are kept up and enforced", "statement": "On every open stream the server has been given back all but fewer than 32767 octets of what it sent, so it is never left with less than half of the 65535-octet window. DATA beyond the window the client advertised for an open stream (65535, plus the WINDOW_UPDATE credit sent on it, minus the flow-controlled octets received on it) closes the connection.", "quantifier": "Every history of the connection with 31-bit identifiers left and no GOAWAY from the server, every stream open in the sense of RFC 9113 5.1, every DATA frame on it (padding included), whatever the callbacks do.", "why_tests_cant": "The window is the running balance of all DATA frames and WINDOW_UPDATE frames of the stream over an unbounded history; that the balance the client keeps is the one the server can compute holds only as an invariant.", "anchors": ["src/qbm/http/2/protocol/client.h:on(DataFrame)", "src/qbm/http/2/protocol/client.h:conditionally_send_connection_window_update"]}
{"id": "C176", "title": "HTTP/2 client: connection errors are answered by GOAWAY with the right code and the connection is closed", "statement": "While the connection is open: SETTINGS on a stream other than 0, SETTINGS acknowledgement with entries, a first SETTINGS entry with an invalid value (ENABLE_PUSH, INITIAL_WINDOW_SIZE, MAX_FRAME_SIZE, ENABLE_CONNECT_PROTOCOL), RST_STREAM, PRIORITY or CONTINUATION on stream 0, PUSH_PROMISE, and a WINDOW_UPDATE that takes the connection window over 2^31-1 are each answered at once by GOAWAY with the error code RFC 9113 gives, and the connection is closed. An invalid value in any later SETTINGS entry and a WINDOW_UPDATE that takes the window of an open stream over 2^31-1 close the connection as well.", "quantifier": "Every history of the connection up to the offending frame, every such frame, every content of the callbacks it gives rise to.", "why_tests_cant": "The connection window is a balance over the whole history, and the reaction must not depend on what streams, header blocks or callbacks are in progress.", "anchors": ["src/qbm/http/2/protocol/client.h:on(SettingsFrame)", "src/qbm/http/2/protocol/client.h:on(WindowUpdateFrame)", "src/qbm/http/2/protocol/client.h:send_goaway_and_close"]}
{"id": "C177", "title": "HTTP/2 client: PING and SETTINGS are answered at once", "statement": "On an open connection every PING that is not an acknowledgement is answered at once by a PING acknowledgement with the same eight octets, and every SETTINGS frame with valid values (and no INITIAL_WINDOW_SIZE entry) has its entries applied in order and is acknowledged at once; the connection stays open. This holds as long as fewer than 1000 replies have been written since the last response was delivered.", "quantifier": "Every history of the connection, every such frame, at any point between the frames of other streams.", "why_tests_cant": "That the reply counter never runs ahead of the replies written, so that the flood limit cannot strike an innocent server, is an invariant over all histories.", "anchors": ["src/qbm/http/2/protocol/client.h:on(PingFrame)", "src/qbm/http/2/protocol/client.h:on(SettingsFrame)"]}
{"id": "C178", "title": "Coroutine WebSocket endpoints: frames are yielded in order, each at most once", "statement": "What receive() (coro_client) and next_frame() (coro_session) yield on a connection, leaving out notices of disconnection, is a subsequence of what arrived on it: same contents, same order, nothing twice, nothing from an earlier connection, nothing made up.", "quantifier": "Every history of calls, arriving messages, pings, pongs, closes, connects, errors, disconnections, changes of the buffer limit and destructions of suspended coroutines, for both classes.", "why_tests_cant": "Order and absence of repetitions depend on the interleaving of arrivals with waiting readers, on the buffer limit and on reconnections; tests fix one interleaving.", "anchors": ["src/qbm/http/ws/coro.h:deliver_frame,receive,next_frame,connect", "src/qbm/http/coro.h:http_awaiter"]}
{"id": "C179", "title": "Coroutine WebSocket endpoints: a reader that keeps up loses nothing", "statement": "If fewer frames are unread than the smallest buffer limit ever in force whenever something arrives, then everything that arrived has been yielded or is unread, in order, and the next receive() yields the oldest unread frame at once.", "quantifier": "Every history of a connection on which nothing arrives after its end; every limit above zero.", "why_tests_cant": "Frames could be lost between a waiting reader and the buffer in any interleaving.", "anchors": ["src/qbm/http/ws/coro.h:deliver_frame,receive,next_frame,on(closed),on(disconnected)", "src/qbm/http/coro.h:http_awaiter"]}
{"id": "C180", "title": "Coroutine WebSocket endpoints: unread frames are bounded", "statement": "The number of frames kept for the application never exceeds the largest limit that was ever in force (1024, or what set_pending_cap set), whatever the peer sends.", "quantifier": "Every history, however long, of both classes.", "why_tests_cant": "Boundedness over unbounded histories.", "anchors": ["src/qbm/http/ws/coro.h:deliver_frame,set_pending_cap"]}
{"id": "C181", "title": "Coroutine WebSocket endpoints: a co_await ends at most once", "statement": "No call of connect, receive, next_frame or close_async yields twice, throws twice, or both yields and throws; and no call ends before it is made.", "quantifier": "Every history, with coroutines destroyed at any point and completions arriving at any point.", "why_tests_cant": "Double resumption needs a particular interleaving of completions; a coroutine resumed twice is undefined behaviour.", "anchors": ["src/qbm/http/coro.h:http_awaiter::await_suspend", "src/qbm/http/ws/coro.h"]}
{"id": "C182", "title": "Coroutine WebSocket endpoints: nothing waits for a transport that is gone", "statement": "From the moment the disconnection (for the client: or an error) is reported until the next connect, every call made so far and every later call has yielded or thrown, unless its coroutine was destroyed.", "quantifier": "Every history before and after the end of the transport, for both classes.", "why_tests_cant": "A coroutine that hangs for ever shows in a test only for the one interleaving tested.", "anchors": ["src/qbm/http/ws/coro.h:on(disconnected),on(error),receive,next_frame,close_async"]}
{"id": "C183", "title": "Coroutine WebSocket endpoints: one Close for one Close", "statement": "The peer's Close is answered by exactly one Close with the same payload if none was sent on the connection before, and by none if one was. A close_async() that is refused for its status changes nothing.", "quantifier": "Every history before the peer's Close, every payload, for both classes.", "why_tests_cant": "Whether a Close was sent is spread over two flags and depends on the order of calls, closes and disconnections.", "anchors": ["src/qbm/http/ws/coro.h:on(closed),close_async", "src/qbm/http/ws/ws.h:WebSocket::on(closed),WebSocket::operator<<,is_sendable_close_code"]}
{"id": "C184", "title": "Coroutine WebSocket endpoints: a waiting reader is served at once", "statement": "If a call of receive() or next_frame() is waiting when a message, ping, pong or Close arrives, that very call yields that very frame, at that moment.", "quantifier": "Every history, every waiting call, every arriving frame, for both classes.", "why_tests_cant": "That a waiting call is always the one registered in the endpoint, alive and not completed, is an invariant over all histories.", "anchors": ["src/qbm/http/ws/coro.h:deliver_frame,receive,next_frame", "src/qbm/http/coro.h:http_awaiter"]}
{"id": "C185", "title": "Coroutine WebSocket endpoints: connect and close_async yield when what they wait for happens", "statement": "A waiting connect() yields ok when the handshake has ended; a waiting close_async() yields ok when the peer's Close arrives; a new connect() ends every call made before it.", "quantifier": "Every history and every waiting call.", "why_tests_cant": "Which call waits in which slot depends on the whole history.", "anchors": ["src/qbm/http/ws/coro.h:connect,close_async,on(connected),on(closed)"]}
{"id": "C186", "title": "Coroutine WebSocket endpoints: no false notice of disconnection", "statement": "As long as the connection made last has not ended, receive() and next_frame() do not yield a notice of disconnection when called.", "quantifier": "Every history of both classes, with any number of earlier connections that ended.", "why_tests_cant": "A stale mark or a stale notice left in the buffer by an earlier connection shows only in histories with reconnections.", "anchors": ["src/qbm/http/ws/coro.h:receive,next_frame,connect,on(disconnected),on(error)"]}
