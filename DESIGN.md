# Formal model of qbm-http in Rocq (Coq 8.16.1)

The model lives in `rocq/theories`. It is a set of executable Gallina functions, one per C++ function
modelled, each carrying a comment with the file and lines in `/repo/src/qbm/http`. The C++ code is never
run: the tie between model and code is the reading recorded in those comments.

## Conventions

* A byte is an `N`; a `std::string`, `std::vector<uint8_t>` or view is a `list N`. Where byte-ness matters
  the statement carries `bytes_ok s` (every element < 256), true of every real byte string.
* `char` is signed (x86-64 gcc/clang/MSVC): comparisons of `char` with constants go through `schar`.
* `std::size_t`, `uint64_t` are `N`; wrap-around is written explicitly (`mod 2^64`) wherever a property
  is about it, otherwise lengths are assumed to fit (an object cannot exceed the address space).
* Undefined behaviour (out-of-range read, index past the ring, absent stream dereferenced, ...) is a
  separate result or flag, never a default.
* Loops are structural recursion or fuel; running out of fuel is a separate error value and each theorem
  excludes it.
* Application callbacks (handlers, middleware, extractors) are inputs of the model: either a function
  parameter universally quantified in the theorem, or a list of events chosen by the environment. No
  property assumes they are well behaved unless its statement says so.

## Layout

For a module X: `XModel.v` (code model), `XSpec.v` (independent specification: relations or simplest
possible functions, no reference to the model), `XProofs.v` and similar (lemmas), `XProps.v` (the property
theorems, each followed by `Print Assumptions`, with `Example`s showing that the hypotheses are met by
concrete non-trivial cases). `_refuted` theorems are claims that the faithful model violates, with a
concrete witness computed by the kernel. `_partial` theorems prove less than the property; what is missing
is said in the comment above them and in MANIFEST.json.

## Plan per property

| id | model | proof |
|----|-------|-------|
| C01-C04 | `UtilModel`: byte loops of utility.cpp | induction on the string; finite sweep over 256 bytes |
| C05 | `iequals` bit tricks as N bit operations | equivalence with mapped lower-casing; byte sweep lifted |
| C06,C07 | splitters as the C++ loops (find position, substr) | induction on length; spec by relations/`join` |
| C08,C09 | `encode_integer`/`decode_integer` with u64 guards explicit | strong induction; exact value function of the RFC text |
| C10-C12 | table literal, bit buffer encoder, tree decoder | encoder = bit concatenation (invariant); tree decoder = prefix-code decoder; finite sweep of the table |
| C13 | ring buffer record with head/mask/count | refinement to a list with abstract FIFO eviction; induction over histories |
| C14-C17,C19 | encoder/decoder instruction loops | simulation: encoder table is a prefix of decoder table |
| C18 | FNV-1a hash, probing table computed in Coq | finite sweep of the table + probe lemma |
| C20-C22 | frame header, serializers, payload parsers with explicit out-of-range result | algebra on big-endian bytes |
| C23 | framer state machine | invariant over frame sequences |
| C24-C26 | validators | case analysis / induction, spec written from the RFC |
| C27-C29 | stream record and transitions | invariant over event lists; arithmetic |
| C30 | the framer's buffer loop fed by arbitrary slices | confluence: state after a slice list = state after the concatenation |
| C31 | send_headers fragmentation | induction on the block; read back by the framer model of C23 |
| C32-C46 | `H2ServerModel`: the whole server connection (2/protocol/server.h) as a step function on events (frames received, responses submitted, handler results, cleanup ticks); HPACK as the proved codec's interface | refinement to a ghost trace (`H2ServerSpec`: what was received/sent/delivered); inductive invariants over all event lists; refutations by `vm_compute` on explicit histories |
| C47-C53 | `WsModel`: ws parser on octets, fragmentation, close, masking, sender | functional specification of a session on the octet stream; parser = spec for every slicing |
| C54,C55 | handshake decision functions (SHA-1/base64 as parameters) | exact characterisation |
| C56-C60 | `RouteModel`: radix tree insert/match, router groups/controllers | tree invariant: the tree is the set of registered patterns; matching = specificity order on patterns |
| C61-C66 | `CtxModel`: context.h task chain as a step machine with nested calls | invariants over all event interleavings |
| C67-C69 | `RateModel`: sliding window limiter, client-id extraction | potential argument over histories; exact parsing |
| C70-C76 | `StaticModel`, `StaticFs`: range/etag/date checks, POSIX-like file system with symbolic links, weakly_canonical | exactness of parsers; containment by induction on path resolution |
| C77,C78 | `DateModel`: formatter and three parsers, calendar | the calendar of the specification counts days one at a time; equality by induction over years/months/days |
| C79-C82 | `CookieModel`: Cookie/Set-Cookie parsers as their loops, serializer, jar | grammar-directed induction; round trips |
| C83-C86 | `Http1Model`: request.cpp/response.cpp/body.cpp serialization into the output pipe | an independent reader of the HTTP/1.1 grammar (`Http1Spec`) accepts exactly the intended message from the octets written |
| C87-C90 | `RecvModel`: 1.1/protocol/base.h callbacks, getMessageSize, flush_eof, read loop; llhttp is an arbitrary octet-incremental machine | simulation by an octet-at-a-time machine for every slicing; parser invariant; framing theorems quantify over the machine |
| C91-C93 | `HdrModel`: headers.{h,cpp} attribute lists, Content-Type, header container, coding negotiation | grammar equivalence (run of the character machine = derivation); container refined to a list of fields; negotiation characterised by induction over elements, two wishes refuted |
| C94-C104 | `CliModel`: 1.1/client.{h,cpp}, origin.cpp as a machine with an explicit stack of frames; user callbacks are frames during which the environment calls the API | invariants over all runs (multiset accounting, order, batches, scopes); C99, C101, C102 under stated conditions, with refutations of the unconditional statements |
| C105-C110 | `MpModel`: multipart.{h,cpp}, the MultipartReader and as<Multipart> of body.cpp, all buffer accesses checked | `MpAuto`: an octet-at-a-time reader; `MpRefine`, `MpRefine2`: the parser simulates it for every cut; `MpDoc`: what it does on documents; `MpSafe`: bounds and termination; `MpReader`: the parts built |
| C111-C116 | `CorsModel`: middleware/cors.h; the regular expression engine is a parameter | `CorsSpec`, `CorsProps`, `CorsProps2`: the response is a list of header changes (`HeaderOps`), configuration histories by a refinement to plain settings; `CorsExamples` |
| C117-C118 | `SecModel`: middleware/security_headers.h; the random source is a parameter | `SecProps`: the changes as a list of sets of distinct names |
| C119-C123 | `CompModel`: Body::compress/uncompress, header factories, middleware/compression.h; the library is any streaming provider | `CompSpec` (contracts), `CompProps` (choice), `CompProps2` (loop invariants: output so far plus what the coder still has to write is constant), `CompExamples` (a run-length coder meets the contracts; refutations) |
| C124-C127 | `ValJson`, `ValModel`: validation/rule, error, schema_validator; the regular expression engine, dump and the order of values in a set are parameters | `ValSpec` (the meaning of a schema), `ValProps`-`ValProps3` (one induction on the fuel over all keywords), `ValExamples` |
| C128-C132 | `SanModel`: validation/sanitizer | `SanSpec` (texts, places in a document, displayed HTML, SQL literals and LIKE), `SanProps`-`SanProps3` |
| C133-C138 | `ReqModel`: validation/parameter_validator, request_validator, middleware/validation.h; JSON parsing and writing and the reading of doubles are parameters; rules, parsers and sanitizers are arbitrary functions that may throw | `FloatFacts` (doubles and whole numbers), `ReqSpec`, `ReqProps`-`ReqProps3` (each part gives a verdict with its errors; verdicts compose), `ReqExamples` |
| C139-C150 | `AuthModel`: auth/{options,user,manager}, middleware/auth.h, middleware/jwt.h; the JSON and JWT libraries, qb::to_number and the application's callbacks are parameters | `AuthSpec` (what a good token, a bearer value and an identified user are), `AuthProps`-`AuthProps5` (each check characterised, then composed), `AuthExamples` (refutations) |
| C151-C152 | `FormModel`: form.h, the Form conversions of body.cpp; percent coding is a parameter | `FormSpec` (pieces, pairs), `FormProps`: loop = fold over the pieces, writing = pieces glued |
| C153-C156 | `RecapModel`: middleware/recaptcha; the JSON library is a parameter; a machine over requests, replies, ends and updates | `RecapSpec`, `RecapProps`: decision by cases, histories by an invariant that is exact (open entries = pending verifications) |
| C157-C159 | `MwModel`: middleware/conditional, transform, error_handling, timing, logging over `CtxModel` | `MwProps`: registrations as a table, chains with a task replaced, hooks |
| C160-C177 | `H2ClientModel`: 2/protocol/client.h (ClientHttp2Protocol) driven by the frames the framer delivers and by the application's calls, from outside and in callbacks | `H2ClientSpec` (quantities read off a chronicle); `H2ClientSteps` (elementary steps), `H2ClientAgree`, `H2ClientHandlers`, `H2ClientFrames`, `H2ClientRun` (every event is a sequence of steps), `H2ClientInv`, `H2ClientLedger`, `H2ClientSend`, `H2ClientLimits`, `H2ClientActive` (invariants of the steps), `H2ClientProps`, `H2ClientErrors` |
| C178-C186 | `CoroModel`: ws/coro.h (coro_client, coro_session: frame queue, waiting slots, close state) on coro.h (http_awaiter), driven by calls, arriving frames, connection events and destroyed coroutines | `CoroSpec` (what arrived, was yielded, has ended, read off the log); `CoroProofs` (order, bound), `CoroProofs2` (outcomes, waiting), `CoroKeep` (nothing lost), theorems in `CoroProps`, `CoroProps2` (which call waits in which slot) by invariants over all histories |
| C187- | see the sections below as they are added | |

## Trusted base

* Coq's kernel (and `coqchk`, which the gate runs on every compiled module).
* `Print Assumptions` stands under every property theorem and prints `Closed under the global context`
  for each: no theorem uses any axiom, neither the standard library's nor ours. (`coqchk -o` lists seven
  constants `Coq.ssr.ssrunder.Under_rel.*` as axioms of a *loaded* library module: an opaque module
  signature of the standard distribution's ssreflect plugin, loaded through the library; no theorem here
  depends on them, as `Print Assumptions` shows.)
* `vm_compute` is used in some proofs (finite sweeps, examples); it is part of the kernel, and `coqchk`
  replays those proofs with the ordinary reduction machine.
* The faithfulness of the model, function by function, to the cited lines. Everything under "assumptions
  on code outside the repository" below.

### Assumptions on code outside the repository

qb-core and the vendored libraries are not in `/repo/src/qbm/http` and are represented as follows.
* `qb::icase_unordered_map`: association list, keys compared by ASCII case folding; iteration order is the
  insertion order (theorems about contents do not depend on the order).
* `qb::safe_timegm` / `safe_gmtime`: proleptic Gregorian calendar.
* `std::from_chars`, `to_string`, `to_chars`: decimal/hexadecimal conversions with overflow detection.
* `qb::allocator::pipe<char>`: a growable byte buffer.
* `std::filesystem`: `StaticFs` (a tree of directories, files and links; no concurrent modification, no
  permissions).
* SHA-1, base64, TLS, gzip, llhttp, ngtcp2/nghttp3: not modelled; parameters or events where needed.
* Threads: the listener is single-threaded, as the code assumes (one actor per listener).

## Modelled / not modelled

Modelled (file: functions):
* utility.cpp/h: percent coding, HTML escaping, comparison, splitting, trimming, Content-Length parsing.
* 2/protocol/hpack*.{h,cpp}: integer and string coding, Huffman, static and dynamic tables, encoder, decoder.
* 2/protocol/frames.h, base.{h,cpp}, stream.{h,cpp}: frame header, payload parsing/serialisation, framer,
  settings validation, header validation, stream state, windows.
* 2/protocol/server.h: connection state, all frame handlers, flow control, send queue, push promise,
  GOAWAY, rapid-reset counters, cleanup.
* ws/ws.{h,cpp}: frame parser, message assembly, sender, handshake decisions.
* routing/radix_tree.h, path_parameters.h, router_core.h, router.h, route_group.h, controller.h (route
  registration and matching), context.h (task chain, hooks, cancellation, completion).
* middleware/rate_limit.h, middleware/static_files.{h,cpp}.
* date.{h,cpp}, cookie.{h,cpp}.
* headers.{h,cpp}: parse_header_attributes, ContentType, add/set/remove/lookup, content_encoding (not
  accept_encoding(), which formats floating point weights).
* request.cpp, response.cpp, body.cpp (serialization of messages and chunks), 1.1/protocol/base.h, server.h,
  client.h (reception). llhttp is a parameter: any machine that consumes one octet at a time, reports pieces
  of target, field names, field values and body, and stops at the end of the header section, of the message,
  or at an error. That http_execute hands contiguous data of one kind to a callback in one piece per call is
  modelled; that llhttp resumes where it paused is part of the interface.

* `CliModel`: 1.1/client.{h,cpp} (every function that touches the queue, the active request, the batches, the
  connection object, timers and deferred closures) and origin.cpp. Not modelled there: header defaults of a
  request, the transport, TLS, the parsing of a URI; time is an event that may come at any moment. A callback
  that throws behaves as one that returns.

* `MpModel`: multipart.{h,cpp} (MultipartParser, parse_boundary, serialisation, content_length) and, of
  body.cpp, MultipartReader, as<Multipart>. Not modelled: the random boundary generator, the return value and
  error text of feed; the reader's callbacks run over the events after the call instead of during it.

* `CorsModel`: middleware/cors.h (options, is_origin_allowed with the lazily compiled patterns, process,
  preflight). `SecModel`: middleware/security_headers.h. std::regex and the random source are parameters.
* `CompModel`: body.cpp compress, uncompress and the two header factories; middleware/compression.h. The
  compression library is a parameter with the contract of `CompSpec`: a compressor called with is_last stops only
  when done or out of room; a decompressor may also stop when its input is used up and keeps nothing back then.

* `ValModel`: validation/{error,rule,schema_validator} without the texts of messages, `SanModel`:
  validation/sanitizer. std::regex, nlohmann::json's dump and its ordering inside std::set are parameters.
  `ReqModel`: parameter_validator, request_validator, middleware/validation.h; the iteration order of maps is any
  list; the Preview of a compound value is assumed not to throw.

* `AuthModel`: auth/options, auth/user, auth/manager, middleware/auth.h and middleware/jwt.h. qb::jwt, nlohmann::json
  and qb::to_number are parameters (with the round-trip contracts the theorems name as hypotheses); metadata and
  objects are lists in name order; the clock arithmetic is in Z except where wrap-around is the point (exp of an
  unsigned token); a throwing error handler throws before completing; a success handler does not complete the
  context itself.

* `FormModel`, `RecapModel`, `MwModel`: form.h, recaptcha, conditional, transform, error_handling, timing, logging.
  Not modelled there: challenge_ts, the headers of the outgoing request, log texts' method names; user functions
  given to the error handler, the timing and the logging middleware do not complete the context themselves.

* `H2ClientModel`: 2/protocol/client.h. Dead code is left out (everything behind SETTINGS_ENABLE_PUSH, which is
  constantly 0). Not modelled: time stamps, priorities, debug texts, uint32_t wrap-around of stream identifiers.
  send_request_trailers is modelled, but the theorems exclude it (`event_ok`), for the reasons in the findings.

* `CoroModel`: ws/coro.h and coro.h. Not modelled: spawning of run(), the upgrade (accept_upgrade), the Close frames the
  frame parser itself sends, the transport behind connect(). A completion schedules its coroutine, so no user code runs
  inside an event; an awaiter is awaited where it is made.

Not modelled: 2/client.*, 3/* (HTTP/3), connection objects and timers
(1.1/http.h, 2/http2.h), routing/coro_task.h, JSON parsing. Rows move out of this list as the model
grows.

## Findings (behaviour of the code that contradicts what a user would expect)

Proved as `_refuted` theorems unless marked (read).
* C19: `encode` mutates the dynamic table before failing on a later field; callers that keep the connection
  alive (server.h push promise 1321, client.h:1277 trailers) (read) then desynchronise the peer. A block
  larger than the peer's MAX_HEADER_LIST_SIZE is discarded after encoding (server.h:1154), same effect (read).
* C22/C23: an empty DATA/HEADERS frame with PADDED or PRIORITY is accepted; an empty HEADERS without
  END_HEADERS does not open a block; an empty CONTINUATION with END_HEADERS leaves the framer demanding
  another.
* C28/C29: stream window change uses |delta|; negative windows are refused; -1 doubles as the error value.
* C33: receive window may never be replenished after refused streams (server.h:338-345).
* C37: SETTINGS_INITIAL_WINDOW_SIZE changes skip half-closed (remote) streams (server.h:2112).
* C38: two responses on one pending stream are mixed. C45: a throwing handler leaves a live stream.
* C46: cleanup measures age, not inactivity.
* (read) refused/old-stream HEADERS are not HPACK-decoded (server.h:426-451); a decode failure is answered
  with RST_STREAM only (server.h:1547); trailers are always sent as an empty HEADERS frame; PUSH_PROMISE is
  never fragmented and a response on a promised stream is reset.
* C57: a rejected registration leaves intermediate nodes and parameter names behind.
* C64: a PRE_ROUTING hook that reports ERROR runs the error chain and then the route chain as well.
* C72/C73: a directory's index file that is a symbolic link is followed out of the root;
  `reject_symlinks` is bypassed with `/missing/../link`. C75: If-Modified-Since is consulted although
  If-None-Match is present.
* C77/C78: years < 1000 are written unpadded and do not read back; parsing is lenient.
* C80: a backslash in a quoted cookie lets control characters through; a value starting with `'` makes the
  whole header fail; names are merged case-insensitively.
* C83: a chunked message with an empty body is written without its last chunk; the request target is written
  unchecked (CR LF in a URI reaches the wire). C84: a refused message clears the whole output pipe, including
  messages queued before it. C85: an empty body under a declared non-zero Content-Length is written.
* C87: MAX_CHUNK_SIZE is applied to the piece of a chunk one read brings, so a chunk above 16 MiB is refused
  or not depending on the reads. C89: trailer fields are entered into headers() after the framing checks, all
  but the last one, which is lost.
* C93: content_encoding takes the first acceptable element, whatever the weights, and a wildcard can choose a
  coding that a later element excludes (`*, gzip;q=0`); `1.` is not a qvalue and makes the element excluded.
* (read) 1.1 reception: chunked messages gain an empty Content-Type; content_type() is not refreshed for
  messages with a length; the raw input buffer of a chunked message is not bounded (extensions count for
  nothing); a 1xx response is delivered by the client as the final one; the one-shot session (1.1/http.h)
  never calls flush_eof, so responses that run to the close are lost there.
* C98: disconnect() before the outcome of a connect() leaves the callback stored and uncalled for good. A second
  stored callback is told true even if the first one disconnected (read from the model).
* C99: a request times out, its callback pushes the next one, which is written to the connection being closed;
  what arrives for the first request, also a truncated message completed by flush_eof, is delivered as the
  response of the second.
* C101: a push from the callback of a `Connection: close` response goes out on the closing connection and fails
  with 502; a closing message on an idle connection is ignored.
* C102: when the transport already reports closed, a push from the callback of the request failed by the
  disconnect replaces (destroys) the connection object whose handler is running.
* C103: disconnect() followed by push_request() inside a callback leaves the client "connecting" without a
  connection object: only the request timers end what is queued, and connect() never starts again.
* C105/C107 (multipart): bytes after the closing delimiter in the same call make the parser forget the end
  (`succeeded()` is false, and the next call starts over with stale marks, which can hand a callback a reversed
  range: `always_in_bounds_refuted`). A header line without a colon leaves its length behind as the position in
  the delimiter search: the part's data may end at once, swallow everything, contain stale bytes, or the call
  throws out_of_range; what is delivered then depends on the cuts. Delimiter text followed by a lone CR inside a
  part hides the closing delimiter. C106: as<Multipart> accepts a truncated body, takes the boundary from the
  first line instead of the Content-Type, keeps one Content-Type value per part, strips leading spaces of values,
  and refuses what an empty Multipart is written as.
* C112/C114 (CORS): a preflight from a refused origin is not answered but goes on to the handlers; a list with *
  together with credentials reflects every origin; Origin: * is reflected literally;
  Access-Control-Allow-Headers is sent empty if nothing asked for is approved; the pattern cache is filled during
  requests and is shared without synchronisation.
* C117/C118: Strict-Transport-Security depends on the scheme in the request target, which is empty for ordinary
  requests; the nonce lives in the context under a key handlers can overwrite.
* C120: Body::compress, used alone (1.1/http.h, 1.1/client.cpp), returns a truncated stream when the library reads
  ahead of a full buffer (c120_refuted_truncated); the middleware never sends one. C121/C122: a compressed body
  that was cut off is accepted, octets after its end are dropped; unknown codings next to a known one are ignored
  and their label removed; a bomb is answered with 500; only the first value of Accept-Encoding and
  Content-Encoding is read; partial (206) responses are compressed.
* C124: integers above 2^53 are compared with limits as doubles; a schema nested 64 deep or more rejects valid
  values (and accepts invalid ones under `not`); integers of 2^63 and more equal negative ones in `enum` and are
  ignored as sizes; minLength counts octets and is also applied to arrays. C126: a numeric exclusiveMinimum
  (draft 6) beside minimum, or a pattern that is no regular expression, throws when a value is validated, not
  when the validator is built.
* C131: `<<img ...>` and `<?...>` pass strip_html_tags. C132: escape_sql_like does not escape the backslash, so
  `\%` in the input is an active wildcard.
* C134: the verdict of a rule is taken from the errors it adds, not from what it returns: a CustomRule returning
  false without add_error accepts the parameter. Path validators are built "strict" but unexpected path parameters
  are never looked at; query and header validators can never be made strict (no accessor).
* C135/C136: exceptions of the schema (bad pattern, numeric exclusive limits) and of writing non-UTF-8 values into
  the report are not caught by the validator or the middleware. C137: set_error_value_policy of the request
  validator is not passed to the body schema, whose errors echo full values.
* C141: an unsigned token without exp never expires although expiry is verified; an exp of 2^63 or more wraps to the
  past. C142: the roles after the first entry that is no string are dropped. C143: an id or user name that happens to
  be JSON text (`42`, `null`) does not survive the token, and the application's own token is refused.
* C147: the JWT middleware wants a space after the scheme (a tab is refused, unlike the auth middleware); a vertical
  tab is no blank. C150: a numeric sub is lost between the JWT and the auth middleware; optional authentication
  together with roles lets anonymous requests through unchecked; role_auth_middleware uses default options, so a
  token signed with the empty key is good if the JWT library takes an empty key.
* C154: by default (ChallengeType::Auto) a score that is no number is ignored; action and hostname are never checked.
  C155 (read): a JSON body without the field is parsed again as a form, so text inside its strings can supply the
  token. C157 (read): nothing in the repository sets __error_message. C159: timing middlewares of the same name share
  one start time.
* C160-C177 (HTTP/2 client). Proved as `_refuted` examples: an interim (1xx) response followed by the final one is reset;
  trailers not announced by a Trailer field are reset; a stream ended by DATA before HEADERS is dropped without telling
  the application; a response that ends before the request body leaves the rest of the body unsent and the stream
  counted as active for ever; DATA in flight on a stream the client has reset closes the whole connection; announced
  trailers are never sent when the body goes out in the first call (the request never ends); send_request_trailers
  ends the request in mid-body; a GOAWAY(NO_ERROR) that abandons a half-received response delivers the truncated
  response with NO_ERROR; the SETTINGS acknowledgement is written after GOAWAY when a new initial window overflows.
  Read: no check that stream identifiers are used up; trailer HEADERS are not cut to the peer's frame size and their
  names are neither validated nor lower-cased; framing errors produce no GOAWAY (not_ok comes first); PING on a
  stream other than 0 is answered; HEADERS for an unknown stream are not HPACK-decoded, so the tables go apart; a
  request head that HPACK refuses closes the connection; send_request_trailers uses a stream context that the error
  callback may have erased; octets of a body refused as too large are not credited back to the connection.
* C178-C186 (coroutine WebSocket endpoints). Proved as `_refuted`: a coroutine destroyed in receive() leaves its slot
  behind, so the next frame goes to nobody and another receive() throws until then; close_async() with a status that may
  not be sent (1005, 1006, ...) throws after filling the slot, so the next close_async() throws "already pending", and on a
  session it has also set _close_sent, so the peer's Close is never answered; close_async() after the peer's Close sends a
  second Close and waits for a disconnection (contrary to the comment in on(closed) of the client); lowering the limit
  drops nothing. Read: IncomingFrame::payload stays empty for Close, contrary to its comment.
