(** Model of the HTTP/2 client side of a connection, 2/protocol/client.h (ClientHttp2Protocol), driven by the
    frames that the framer of H2Model hands over and by the calls of the application.
    Paths are relative to /repo/src/qbm/http.  Abstractions, all stated again where they occur:
    - the hash map of stream contexts (a chained map: contexts do not move) is an association list; where the
      code iterates over it, the iteration order is supplied by the event, so every order is covered;
    - a C++ reference to a stream context is its identifier; reading or writing through a reference whose
      context has been erased sets [cl_ub], as does any out-of-range access reported by the HPACK model;
    - the text of log lines, of GOAWAY debug data and of error messages is dropped;
    - uint32_t counters and stream identifiers are unbounded;
    - the application is arbitrary: an event carries the calls it makes in each callback, in order
      ([cl_script]); callbacks nest.
    Not kept because nothing reads them: _peer_allows_push, _peer_max_header_list_size, _peer_max_frame_size
    (the framer's is used), _graceful_shutdown_initiated, _goaway_error_code, priority_info,
    _current_header_stream_id, _outstanding_ping_data.  _pending_pushed_streams is always empty and is left out.
    The single-request mode (a request passed to the constructor) is the same as calling send_request first. *)
From Verif Require Import Base UtilModel HpackTables HpackModel H2Model H2FieldModel.
Local Open Scope N_scope.

(** qb::http::Request as send_request reads it: method text, the parts of the URI, the header names with their
    values (in the iteration order of the map), the body. *)
Record crequest := mk_crq { q_method : list N; q_scheme : list N; q_host : list N; q_port : list N; q_path : list N;
                            q_query : list N; q_headers : list (list N * list (list N)); q_body : list N }.
Definition crq_empty : crequest := mk_crq [] [] [] [] [] [] [] [].

(** qb::http::Response as assembled by the client. *)
Record cresponse := mk_crs { p_status : N; p_headers : list (list N * list N); p_body : list N }.

(** The public entry points the application calls (application_reject_push acts on pushed streams only, and there are none). *)
Inductive ccmd :=
| CSend (r : crequest) (app : N)                                   (* send_request *)
| CTrailers (sid : N) (t : list (list N * list (list N))).         (* send_request_trailers *)

(** The chronicle of a connection. *)
Inductive citem :=
| LIn (f : frame)                                  (* frame received *)
| LOut (f : frame)                                 (* frame written *)
| LSet (id v : N)                                  (* received setting applied *)
| LReq (sid app : N) (r : crequest)                (* request accepted by send_request, given this stream *)
| LRefuse (app : N)                                (* send_request returned false *)
| LBlock (sid : N) (fs : list HpackModel.field)    (* a complete, valid header block of a stream, decoded *)
| LResp (sid app : N) (r : cresponse) (code : N)   (* response delivered, with its error code *)
| LErr (sid code : N)                              (* Http2StreamErrorEvent *)
| LBye (code last : N).                            (* Http2GoAwayEvent *)

(** 2/protocol/stream.h:117-148, 281-296 Http2ClientStream.  window_update_threshold is the constant 32767 (the
    local window always starts at 65535).  Not kept: priority_info, the time stamps, associated_stream_id,
    synthetic_request_headers, request_sent. *)
Record cstream := mk_cs {
  cs_state : sstate; cs_local : Z; cs_peer : Z; cs_proc : N; cs_endr : bool; cs_ends : bool; cs_rstr : bool; cs_rsts : bool; cs_err : N; cs_main : bool; cs_texp : bool; cs_trecv : bool; cs_cont : bool; cs_clen : option N; cs_status : N; cs_hdrs : list (list N * list N); cs_body : list N; cs_app : N; cs_method : list N; cs_disp : bool; cs_wtrail : bool; cs_pend : bool; cs_req : crequest; cs_off : nat; cs_tnames : list (list N) }.
Definition set_cs_state v (s : cstream) : cstream :=
  mk_cs v (cs_local s) (cs_peer s) (cs_proc s) (cs_endr s) (cs_ends s) (cs_rstr s) (cs_rsts s) (cs_err s) (cs_main s) (cs_texp s) (cs_trecv s) (cs_cont s) (cs_clen s) (cs_status s) (cs_hdrs s) (cs_body s) (cs_app s) (cs_method s) (cs_disp s) (cs_wtrail s) (cs_pend s) (cs_req s) (cs_off s) (cs_tnames s).
Definition set_cs_local v (s : cstream) : cstream :=
  mk_cs (cs_state s) v (cs_peer s) (cs_proc s) (cs_endr s) (cs_ends s) (cs_rstr s) (cs_rsts s) (cs_err s) (cs_main s) (cs_texp s) (cs_trecv s) (cs_cont s) (cs_clen s) (cs_status s) (cs_hdrs s) (cs_body s) (cs_app s) (cs_method s) (cs_disp s) (cs_wtrail s) (cs_pend s) (cs_req s) (cs_off s) (cs_tnames s).
Definition set_cs_peer v (s : cstream) : cstream :=
  mk_cs (cs_state s) (cs_local s) v (cs_proc s) (cs_endr s) (cs_ends s) (cs_rstr s) (cs_rsts s) (cs_err s) (cs_main s) (cs_texp s) (cs_trecv s) (cs_cont s) (cs_clen s) (cs_status s) (cs_hdrs s) (cs_body s) (cs_app s) (cs_method s) (cs_disp s) (cs_wtrail s) (cs_pend s) (cs_req s) (cs_off s) (cs_tnames s).
Definition set_cs_proc v (s : cstream) : cstream :=
  mk_cs (cs_state s) (cs_local s) (cs_peer s) v (cs_endr s) (cs_ends s) (cs_rstr s) (cs_rsts s) (cs_err s) (cs_main s) (cs_texp s) (cs_trecv s) (cs_cont s) (cs_clen s) (cs_status s) (cs_hdrs s) (cs_body s) (cs_app s) (cs_method s) (cs_disp s) (cs_wtrail s) (cs_pend s) (cs_req s) (cs_off s) (cs_tnames s).
Definition set_cs_endr v (s : cstream) : cstream :=
  mk_cs (cs_state s) (cs_local s) (cs_peer s) (cs_proc s) v (cs_ends s) (cs_rstr s) (cs_rsts s) (cs_err s) (cs_main s) (cs_texp s) (cs_trecv s) (cs_cont s) (cs_clen s) (cs_status s) (cs_hdrs s) (cs_body s) (cs_app s) (cs_method s) (cs_disp s) (cs_wtrail s) (cs_pend s) (cs_req s) (cs_off s) (cs_tnames s).
Definition set_cs_ends v (s : cstream) : cstream :=
  mk_cs (cs_state s) (cs_local s) (cs_peer s) (cs_proc s) (cs_endr s) v (cs_rstr s) (cs_rsts s) (cs_err s) (cs_main s) (cs_texp s) (cs_trecv s) (cs_cont s) (cs_clen s) (cs_status s) (cs_hdrs s) (cs_body s) (cs_app s) (cs_method s) (cs_disp s) (cs_wtrail s) (cs_pend s) (cs_req s) (cs_off s) (cs_tnames s).
Definition set_cs_rstr v (s : cstream) : cstream :=
  mk_cs (cs_state s) (cs_local s) (cs_peer s) (cs_proc s) (cs_endr s) (cs_ends s) v (cs_rsts s) (cs_err s) (cs_main s) (cs_texp s) (cs_trecv s) (cs_cont s) (cs_clen s) (cs_status s) (cs_hdrs s) (cs_body s) (cs_app s) (cs_method s) (cs_disp s) (cs_wtrail s) (cs_pend s) (cs_req s) (cs_off s) (cs_tnames s).
Definition set_cs_rsts v (s : cstream) : cstream :=
  mk_cs (cs_state s) (cs_local s) (cs_peer s) (cs_proc s) (cs_endr s) (cs_ends s) (cs_rstr s) v (cs_err s) (cs_main s) (cs_texp s) (cs_trecv s) (cs_cont s) (cs_clen s) (cs_status s) (cs_hdrs s) (cs_body s) (cs_app s) (cs_method s) (cs_disp s) (cs_wtrail s) (cs_pend s) (cs_req s) (cs_off s) (cs_tnames s).
Definition set_cs_err v (s : cstream) : cstream :=
  mk_cs (cs_state s) (cs_local s) (cs_peer s) (cs_proc s) (cs_endr s) (cs_ends s) (cs_rstr s) (cs_rsts s) v (cs_main s) (cs_texp s) (cs_trecv s) (cs_cont s) (cs_clen s) (cs_status s) (cs_hdrs s) (cs_body s) (cs_app s) (cs_method s) (cs_disp s) (cs_wtrail s) (cs_pend s) (cs_req s) (cs_off s) (cs_tnames s).
Definition set_cs_main v (s : cstream) : cstream :=
  mk_cs (cs_state s) (cs_local s) (cs_peer s) (cs_proc s) (cs_endr s) (cs_ends s) (cs_rstr s) (cs_rsts s) (cs_err s) v (cs_texp s) (cs_trecv s) (cs_cont s) (cs_clen s) (cs_status s) (cs_hdrs s) (cs_body s) (cs_app s) (cs_method s) (cs_disp s) (cs_wtrail s) (cs_pend s) (cs_req s) (cs_off s) (cs_tnames s).
Definition set_cs_texp v (s : cstream) : cstream :=
  mk_cs (cs_state s) (cs_local s) (cs_peer s) (cs_proc s) (cs_endr s) (cs_ends s) (cs_rstr s) (cs_rsts s) (cs_err s) (cs_main s) v (cs_trecv s) (cs_cont s) (cs_clen s) (cs_status s) (cs_hdrs s) (cs_body s) (cs_app s) (cs_method s) (cs_disp s) (cs_wtrail s) (cs_pend s) (cs_req s) (cs_off s) (cs_tnames s).
Definition set_cs_trecv v (s : cstream) : cstream :=
  mk_cs (cs_state s) (cs_local s) (cs_peer s) (cs_proc s) (cs_endr s) (cs_ends s) (cs_rstr s) (cs_rsts s) (cs_err s) (cs_main s) (cs_texp s) v (cs_cont s) (cs_clen s) (cs_status s) (cs_hdrs s) (cs_body s) (cs_app s) (cs_method s) (cs_disp s) (cs_wtrail s) (cs_pend s) (cs_req s) (cs_off s) (cs_tnames s).
Definition set_cs_cont v (s : cstream) : cstream :=
  mk_cs (cs_state s) (cs_local s) (cs_peer s) (cs_proc s) (cs_endr s) (cs_ends s) (cs_rstr s) (cs_rsts s) (cs_err s) (cs_main s) (cs_texp s) (cs_trecv s) v (cs_clen s) (cs_status s) (cs_hdrs s) (cs_body s) (cs_app s) (cs_method s) (cs_disp s) (cs_wtrail s) (cs_pend s) (cs_req s) (cs_off s) (cs_tnames s).
Definition set_cs_clen v (s : cstream) : cstream :=
  mk_cs (cs_state s) (cs_local s) (cs_peer s) (cs_proc s) (cs_endr s) (cs_ends s) (cs_rstr s) (cs_rsts s) (cs_err s) (cs_main s) (cs_texp s) (cs_trecv s) (cs_cont s) v (cs_status s) (cs_hdrs s) (cs_body s) (cs_app s) (cs_method s) (cs_disp s) (cs_wtrail s) (cs_pend s) (cs_req s) (cs_off s) (cs_tnames s).
Definition set_cs_status v (s : cstream) : cstream :=
  mk_cs (cs_state s) (cs_local s) (cs_peer s) (cs_proc s) (cs_endr s) (cs_ends s) (cs_rstr s) (cs_rsts s) (cs_err s) (cs_main s) (cs_texp s) (cs_trecv s) (cs_cont s) (cs_clen s) v (cs_hdrs s) (cs_body s) (cs_app s) (cs_method s) (cs_disp s) (cs_wtrail s) (cs_pend s) (cs_req s) (cs_off s) (cs_tnames s).
Definition set_cs_hdrs v (s : cstream) : cstream :=
  mk_cs (cs_state s) (cs_local s) (cs_peer s) (cs_proc s) (cs_endr s) (cs_ends s) (cs_rstr s) (cs_rsts s) (cs_err s) (cs_main s) (cs_texp s) (cs_trecv s) (cs_cont s) (cs_clen s) (cs_status s) v (cs_body s) (cs_app s) (cs_method s) (cs_disp s) (cs_wtrail s) (cs_pend s) (cs_req s) (cs_off s) (cs_tnames s).
Definition set_cs_body v (s : cstream) : cstream :=
  mk_cs (cs_state s) (cs_local s) (cs_peer s) (cs_proc s) (cs_endr s) (cs_ends s) (cs_rstr s) (cs_rsts s) (cs_err s) (cs_main s) (cs_texp s) (cs_trecv s) (cs_cont s) (cs_clen s) (cs_status s) (cs_hdrs s) v (cs_app s) (cs_method s) (cs_disp s) (cs_wtrail s) (cs_pend s) (cs_req s) (cs_off s) (cs_tnames s).
Definition set_cs_app v (s : cstream) : cstream :=
  mk_cs (cs_state s) (cs_local s) (cs_peer s) (cs_proc s) (cs_endr s) (cs_ends s) (cs_rstr s) (cs_rsts s) (cs_err s) (cs_main s) (cs_texp s) (cs_trecv s) (cs_cont s) (cs_clen s) (cs_status s) (cs_hdrs s) (cs_body s) v (cs_method s) (cs_disp s) (cs_wtrail s) (cs_pend s) (cs_req s) (cs_off s) (cs_tnames s).
Definition set_cs_method v (s : cstream) : cstream :=
  mk_cs (cs_state s) (cs_local s) (cs_peer s) (cs_proc s) (cs_endr s) (cs_ends s) (cs_rstr s) (cs_rsts s) (cs_err s) (cs_main s) (cs_texp s) (cs_trecv s) (cs_cont s) (cs_clen s) (cs_status s) (cs_hdrs s) (cs_body s) (cs_app s) v (cs_disp s) (cs_wtrail s) (cs_pend s) (cs_req s) (cs_off s) (cs_tnames s).
Definition set_cs_disp v (s : cstream) : cstream :=
  mk_cs (cs_state s) (cs_local s) (cs_peer s) (cs_proc s) (cs_endr s) (cs_ends s) (cs_rstr s) (cs_rsts s) (cs_err s) (cs_main s) (cs_texp s) (cs_trecv s) (cs_cont s) (cs_clen s) (cs_status s) (cs_hdrs s) (cs_body s) (cs_app s) (cs_method s) v (cs_wtrail s) (cs_pend s) (cs_req s) (cs_off s) (cs_tnames s).
Definition set_cs_wtrail v (s : cstream) : cstream :=
  mk_cs (cs_state s) (cs_local s) (cs_peer s) (cs_proc s) (cs_endr s) (cs_ends s) (cs_rstr s) (cs_rsts s) (cs_err s) (cs_main s) (cs_texp s) (cs_trecv s) (cs_cont s) (cs_clen s) (cs_status s) (cs_hdrs s) (cs_body s) (cs_app s) (cs_method s) (cs_disp s) v (cs_pend s) (cs_req s) (cs_off s) (cs_tnames s).
Definition set_cs_pend v (s : cstream) : cstream :=
  mk_cs (cs_state s) (cs_local s) (cs_peer s) (cs_proc s) (cs_endr s) (cs_ends s) (cs_rstr s) (cs_rsts s) (cs_err s) (cs_main s) (cs_texp s) (cs_trecv s) (cs_cont s) (cs_clen s) (cs_status s) (cs_hdrs s) (cs_body s) (cs_app s) (cs_method s) (cs_disp s) (cs_wtrail s) v (cs_req s) (cs_off s) (cs_tnames s).
Definition set_cs_req v (s : cstream) : cstream :=
  mk_cs (cs_state s) (cs_local s) (cs_peer s) (cs_proc s) (cs_endr s) (cs_ends s) (cs_rstr s) (cs_rsts s) (cs_err s) (cs_main s) (cs_texp s) (cs_trecv s) (cs_cont s) (cs_clen s) (cs_status s) (cs_hdrs s) (cs_body s) (cs_app s) (cs_method s) (cs_disp s) (cs_wtrail s) (cs_pend s) v (cs_off s) (cs_tnames s).
Definition set_cs_off v (s : cstream) : cstream :=
  mk_cs (cs_state s) (cs_local s) (cs_peer s) (cs_proc s) (cs_endr s) (cs_ends s) (cs_rstr s) (cs_rsts s) (cs_err s) (cs_main s) (cs_texp s) (cs_trecv s) (cs_cont s) (cs_clen s) (cs_status s) (cs_hdrs s) (cs_body s) (cs_app s) (cs_method s) (cs_disp s) (cs_wtrail s) (cs_pend s) (cs_req s) v (cs_tnames s).
Definition set_cs_tnames v (s : cstream) : cstream :=
  mk_cs (cs_state s) (cs_local s) (cs_peer s) (cs_proc s) (cs_endr s) (cs_ends s) (cs_rstr s) (cs_rsts s) (cs_err s) (cs_main s) (cs_texp s) (cs_trecv s) (cs_cont s) (cs_clen s) (cs_status s) (cs_hdrs s) (cs_body s) (cs_app s) (cs_method s) (cs_disp s) (cs_wtrail s) (cs_pend s) (cs_req s) (cs_off s) v.

(** client.h:92-156 and the members of the framer it uses: _client_streams, _next_client_stream_id,
    _last_initiated_stream_id, _current_header_block_fragment, _active_header_block_stream_id,
    _connection_send_window, _connection_receive_window, _connection_processed_bytes_for_window_update,
    _initial_peer_window_size, _peer_max_concurrent_streams, _connection_active, _received_goaway,
    _control_reply_count, _continuation_frame_count, the HPACK contexts, the framer's _peer_max_frame_size,
    ok(); then the calls the application will make in its callbacks, the chronicle (newest first) and the
    undefined-behaviour flag. *)
Record client := mk_cl {
  cl_streams : list (N * cstream); cl_next : N; cl_last : N; cl_frag : list N; cl_hsid : N; cl_csend : Z; cl_crecv : Z; cl_cproc : N; cl_ipeer : N; cl_pmcs : N; cl_active : bool; cl_rga : bool; cl_ctl : N; cl_contn : N; cl_dec : decoder; cl_enc : encoder; cl_pmax : N; cl_ok : bool; cl_script : list (list ccmd); cl_log : list citem; cl_ub : bool }.
Definition set_cl_streams v (s : client) : client :=
  mk_cl v (cl_next s) (cl_last s) (cl_frag s) (cl_hsid s) (cl_csend s) (cl_crecv s) (cl_cproc s) (cl_ipeer s) (cl_pmcs s) (cl_active s) (cl_rga s) (cl_ctl s) (cl_contn s) (cl_dec s) (cl_enc s) (cl_pmax s) (cl_ok s) (cl_script s) (cl_log s) (cl_ub s).
Definition set_cl_next v (s : client) : client :=
  mk_cl (cl_streams s) v (cl_last s) (cl_frag s) (cl_hsid s) (cl_csend s) (cl_crecv s) (cl_cproc s) (cl_ipeer s) (cl_pmcs s) (cl_active s) (cl_rga s) (cl_ctl s) (cl_contn s) (cl_dec s) (cl_enc s) (cl_pmax s) (cl_ok s) (cl_script s) (cl_log s) (cl_ub s).
Definition set_cl_last v (s : client) : client :=
  mk_cl (cl_streams s) (cl_next s) v (cl_frag s) (cl_hsid s) (cl_csend s) (cl_crecv s) (cl_cproc s) (cl_ipeer s) (cl_pmcs s) (cl_active s) (cl_rga s) (cl_ctl s) (cl_contn s) (cl_dec s) (cl_enc s) (cl_pmax s) (cl_ok s) (cl_script s) (cl_log s) (cl_ub s).
Definition set_cl_frag v (s : client) : client :=
  mk_cl (cl_streams s) (cl_next s) (cl_last s) v (cl_hsid s) (cl_csend s) (cl_crecv s) (cl_cproc s) (cl_ipeer s) (cl_pmcs s) (cl_active s) (cl_rga s) (cl_ctl s) (cl_contn s) (cl_dec s) (cl_enc s) (cl_pmax s) (cl_ok s) (cl_script s) (cl_log s) (cl_ub s).
Definition set_cl_hsid v (s : client) : client :=
  mk_cl (cl_streams s) (cl_next s) (cl_last s) (cl_frag s) v (cl_csend s) (cl_crecv s) (cl_cproc s) (cl_ipeer s) (cl_pmcs s) (cl_active s) (cl_rga s) (cl_ctl s) (cl_contn s) (cl_dec s) (cl_enc s) (cl_pmax s) (cl_ok s) (cl_script s) (cl_log s) (cl_ub s).
Definition set_cl_csend v (s : client) : client :=
  mk_cl (cl_streams s) (cl_next s) (cl_last s) (cl_frag s) (cl_hsid s) v (cl_crecv s) (cl_cproc s) (cl_ipeer s) (cl_pmcs s) (cl_active s) (cl_rga s) (cl_ctl s) (cl_contn s) (cl_dec s) (cl_enc s) (cl_pmax s) (cl_ok s) (cl_script s) (cl_log s) (cl_ub s).
Definition set_cl_crecv v (s : client) : client :=
  mk_cl (cl_streams s) (cl_next s) (cl_last s) (cl_frag s) (cl_hsid s) (cl_csend s) v (cl_cproc s) (cl_ipeer s) (cl_pmcs s) (cl_active s) (cl_rga s) (cl_ctl s) (cl_contn s) (cl_dec s) (cl_enc s) (cl_pmax s) (cl_ok s) (cl_script s) (cl_log s) (cl_ub s).
Definition set_cl_cproc v (s : client) : client :=
  mk_cl (cl_streams s) (cl_next s) (cl_last s) (cl_frag s) (cl_hsid s) (cl_csend s) (cl_crecv s) v (cl_ipeer s) (cl_pmcs s) (cl_active s) (cl_rga s) (cl_ctl s) (cl_contn s) (cl_dec s) (cl_enc s) (cl_pmax s) (cl_ok s) (cl_script s) (cl_log s) (cl_ub s).
Definition set_cl_ipeer v (s : client) : client :=
  mk_cl (cl_streams s) (cl_next s) (cl_last s) (cl_frag s) (cl_hsid s) (cl_csend s) (cl_crecv s) (cl_cproc s) v (cl_pmcs s) (cl_active s) (cl_rga s) (cl_ctl s) (cl_contn s) (cl_dec s) (cl_enc s) (cl_pmax s) (cl_ok s) (cl_script s) (cl_log s) (cl_ub s).
Definition set_cl_pmcs v (s : client) : client :=
  mk_cl (cl_streams s) (cl_next s) (cl_last s) (cl_frag s) (cl_hsid s) (cl_csend s) (cl_crecv s) (cl_cproc s) (cl_ipeer s) v (cl_active s) (cl_rga s) (cl_ctl s) (cl_contn s) (cl_dec s) (cl_enc s) (cl_pmax s) (cl_ok s) (cl_script s) (cl_log s) (cl_ub s).
Definition set_cl_active v (s : client) : client :=
  mk_cl (cl_streams s) (cl_next s) (cl_last s) (cl_frag s) (cl_hsid s) (cl_csend s) (cl_crecv s) (cl_cproc s) (cl_ipeer s) (cl_pmcs s) v (cl_rga s) (cl_ctl s) (cl_contn s) (cl_dec s) (cl_enc s) (cl_pmax s) (cl_ok s) (cl_script s) (cl_log s) (cl_ub s).
Definition set_cl_rga v (s : client) : client :=
  mk_cl (cl_streams s) (cl_next s) (cl_last s) (cl_frag s) (cl_hsid s) (cl_csend s) (cl_crecv s) (cl_cproc s) (cl_ipeer s) (cl_pmcs s) (cl_active s) v (cl_ctl s) (cl_contn s) (cl_dec s) (cl_enc s) (cl_pmax s) (cl_ok s) (cl_script s) (cl_log s) (cl_ub s).
Definition set_cl_ctl v (s : client) : client :=
  mk_cl (cl_streams s) (cl_next s) (cl_last s) (cl_frag s) (cl_hsid s) (cl_csend s) (cl_crecv s) (cl_cproc s) (cl_ipeer s) (cl_pmcs s) (cl_active s) (cl_rga s) v (cl_contn s) (cl_dec s) (cl_enc s) (cl_pmax s) (cl_ok s) (cl_script s) (cl_log s) (cl_ub s).
Definition set_cl_contn v (s : client) : client :=
  mk_cl (cl_streams s) (cl_next s) (cl_last s) (cl_frag s) (cl_hsid s) (cl_csend s) (cl_crecv s) (cl_cproc s) (cl_ipeer s) (cl_pmcs s) (cl_active s) (cl_rga s) (cl_ctl s) v (cl_dec s) (cl_enc s) (cl_pmax s) (cl_ok s) (cl_script s) (cl_log s) (cl_ub s).
Definition set_cl_dec v (s : client) : client :=
  mk_cl (cl_streams s) (cl_next s) (cl_last s) (cl_frag s) (cl_hsid s) (cl_csend s) (cl_crecv s) (cl_cproc s) (cl_ipeer s) (cl_pmcs s) (cl_active s) (cl_rga s) (cl_ctl s) (cl_contn s) v (cl_enc s) (cl_pmax s) (cl_ok s) (cl_script s) (cl_log s) (cl_ub s).
Definition set_cl_enc v (s : client) : client :=
  mk_cl (cl_streams s) (cl_next s) (cl_last s) (cl_frag s) (cl_hsid s) (cl_csend s) (cl_crecv s) (cl_cproc s) (cl_ipeer s) (cl_pmcs s) (cl_active s) (cl_rga s) (cl_ctl s) (cl_contn s) (cl_dec s) v (cl_pmax s) (cl_ok s) (cl_script s) (cl_log s) (cl_ub s).
Definition set_cl_pmax v (s : client) : client :=
  mk_cl (cl_streams s) (cl_next s) (cl_last s) (cl_frag s) (cl_hsid s) (cl_csend s) (cl_crecv s) (cl_cproc s) (cl_ipeer s) (cl_pmcs s) (cl_active s) (cl_rga s) (cl_ctl s) (cl_contn s) (cl_dec s) (cl_enc s) v (cl_ok s) (cl_script s) (cl_log s) (cl_ub s).
Definition set_cl_ok v (s : client) : client :=
  mk_cl (cl_streams s) (cl_next s) (cl_last s) (cl_frag s) (cl_hsid s) (cl_csend s) (cl_crecv s) (cl_cproc s) (cl_ipeer s) (cl_pmcs s) (cl_active s) (cl_rga s) (cl_ctl s) (cl_contn s) (cl_dec s) (cl_enc s) (cl_pmax s) v (cl_script s) (cl_log s) (cl_ub s).
Definition set_cl_script v (s : client) : client :=
  mk_cl (cl_streams s) (cl_next s) (cl_last s) (cl_frag s) (cl_hsid s) (cl_csend s) (cl_crecv s) (cl_cproc s) (cl_ipeer s) (cl_pmcs s) (cl_active s) (cl_rga s) (cl_ctl s) (cl_contn s) (cl_dec s) (cl_enc s) (cl_pmax s) (cl_ok s) v (cl_log s) (cl_ub s).
Definition set_cl_log v (s : client) : client :=
  mk_cl (cl_streams s) (cl_next s) (cl_last s) (cl_frag s) (cl_hsid s) (cl_csend s) (cl_crecv s) (cl_cproc s) (cl_ipeer s) (cl_pmcs s) (cl_active s) (cl_rga s) (cl_ctl s) (cl_contn s) (cl_dec s) (cl_enc s) (cl_pmax s) (cl_ok s) (cl_script s) v (cl_ub s).
Definition set_cl_ub v (s : client) : client :=
  mk_cl (cl_streams s) (cl_next s) (cl_last s) (cl_frag s) (cl_hsid s) (cl_csend s) (cl_crecv s) (cl_cproc s) (cl_ipeer s) (cl_pmcs s) (cl_active s) (cl_rga s) (cl_ctl s) (cl_contn s) (cl_dec s) (cl_enc s) (cl_pmax s) (cl_ok s) (cl_script s) (cl_log s) v.

(** base.h:85-114, 1.1/protocol/base.h:60 *)
Definition C_MAX_HEADER_BLOCK : N := 1048576.
Definition C_MAX_BODY : N := 104857600.
Definition C_MAX_REPLIES : N := 1000.
Definition C_MAX_CONT : N := 512.
Definition C_THRESHOLD : N := 32767.

(** client.h:168-248 constructor and reset (send_connection_preface is [client_start] below) *)
Definition client_zero : client :=
  mk_cl [] 1 0 [] 0 65535%Z 65535%Z 0 65535 4294967295 true false 0 0
        (dec_set_max_list dec_init 1048576) enc_init 16384 true [] [] false.

(** stream.h:159-165, 304-305 a new stream context *)
Definition new_cstream (peer local : Z) : cstream :=
  mk_cs IDLE local peer 0 false false false false 0 false false false false None 200 [] [] 0 [] false false false crq_empty 0%nat [].

Definition clen (s : list N) : N := N.of_nat (length s).
Definition in_state (a b : sstate) : bool :=
  match a, b with
  | IDLE, IDLE | OPEN, OPEN | RESERVED_LOCAL, RESERVED_LOCAL | RESERVED_REMOTE, RESERVED_REMOTE
  | HALF_CLOSED_LOCAL, HALF_CLOSED_LOCAL | HALF_CLOSED_REMOTE, HALF_CLOSED_REMOTE | CLOSED, CLOSED => true
  | _, _ => false
  end.

(** ** The stream map *)
Fixpoint find_cs (l : list (N * cstream)) (sid : N) : option cstream :=
  match l with [] => None | (k, x) :: r => if k =? sid then Some x else find_cs r sid end.
Fixpoint put_cs (l : list (N * cstream)) (sid : N) (x : cstream) : list (N * cstream) :=
  match l with [] => [] | (k, y) :: r => if k =? sid then (k, x) :: r else (k, y) :: put_cs r sid x end.
Definition del_cs (l : list (N * cstream)) (sid : N) : list (N * cstream) := filter (fun p => negb (fst p =? sid)) l.
Definition cget (s : client) (sid : N) : option cstream := find_cs (cl_streams s) sid.

(** Access through a reference to the context of [sid]. *)
Definition cupd (sid : N) (g : cstream -> cstream) (s : client) : client :=
  match cget s sid with
  | None => set_cl_ub true s
  | Some x => set_cl_streams (put_cs (cl_streams s) sid (g x)) s
  end.
Definition cerase (sid : N) (s : client) : client := set_cl_streams (del_cs (cl_streams s) sid) s.
Definition cnote (i : citem) (s : client) : client := set_cl_log (i :: cl_log s) s.
(** this->_io << frame *)
Definition cemit (f : frame) (s : client) : client := cnote (LOut f) s.
Definition calive (s : client) : bool := cl_ok s && cl_active s.

(** client.h:1431-1456 try_close_stream_context, try_close_stream_context_by_id *)
Definition ctry_close (sid : N) (s : client) : client :=
  match cget s sid with
  | None => s
  | Some x => if in_state (cs_state x) CLOSED || cs_rsts x || cs_rstr x then cerase sid s else s
  end.

(** client.h:1815-1827 send_window_update *)
Definition csend_wu (sid inc : N) (s : client) : client :=
  if negb (cl_ok s) || (inc =? 0) || (2147483647 <? inc) then s
  else cemit (mk_frame (mk_h T_WINDOW_UPDATE 0 sid) (PWindow inc)) s.

(** client.h:1832-1842 conditionally_send_connection_window_update *)
Definition ccond_wu (s : client) : client :=
  if 65535 / 2 <=? cl_cproc s then
    let inc := cl_cproc s in
    let s := csend_wu 0 inc s in
    set_cl_cproc 0 (set_cl_crecv (cl_crecv s + Z.of_N inc)%Z s)
  else s.

(** client.h:389-394, 418-423, 1504-1509: the stream's own WINDOW_UPDATE *)
Definition cstream_wu (sid : N) (s : client) : client :=
  match cget s sid with
  | None => set_cl_ub true s
  | Some x =>
    if (C_THRESHOLD <=? cs_proc x) && (0 <? C_THRESHOLD) then
      let inc := cs_proc x in
      let s := csend_wu sid inc s in
      cupd sid (fun x => set_cs_proc 0 (set_cs_local (cs_local x + Z.of_N inc)%Z x)) s
    else s
  end.

(** client.h:1401-1406 clear_header_assembly_state *)
Definition cclear (s : client) : client := set_cl_contn 0 (set_cl_hsid 0 (set_cl_frag [] s)).

(** client.h:2436-2460 get_active_stream_count(false) *)
Definition cactive_count (s : client) : N :=
  N.of_nat (length (filter (fun p => negb (in_state (cs_state (snd p)) IDLE) && negb (in_state (cs_state (snd p)) CLOSED)
                                     && negb (cs_rsts (snd p)) && negb (cs_rstr (snd p)) && N.odd (fst p))
                           (cl_streams s))).

(** client.h:1413-1423 are_all_relevant_streams_closed *)
Definition call_closed (last : N) (s : client) : bool :=
  forallb (fun p => negb (N.odd (fst p) && (fst p <=? last) && negb (in_state (cs_state (snd p)) CLOSED)
                          && negb (cs_rsts (snd p)) && negb (cs_rstr (snd p)))) (cl_streams s).

(** client.h:1976-1984 should_enforce_response_content_length *)
Definition enforce_length (x : cstream) : bool :=
  if beq (cs_method x) (str "HEAD") then false
  else negb (((100 <=? cs_status x) && (cs_status x <? 200)) || (cs_status x =? 204) || (cs_status x =? 304)).
Definition length_mismatch (x : cstream) : bool :=
  enforce_length x && (match cs_clen x with Some n => negb (clen (cs_body x) =? n) | None => false end).

(** ** The request head *)
Definition clower (s : list N) : list N := map ascii_to_lower s.
(** std::to_string *)
Fixpoint cdigits (fuel : nat) (n : N) : list N :=
  match fuel with
  | O => []
  | S k => (if n / 10 =? 0 then [] else cdigits k (n / 10)) ++ [48 + n mod 10]
  end.
Definition cdec (n : N) : list N := cdigits (S (N.size_nat n)) n.

(** the header map looked up by name, ignoring case *)
Definition q_find (name : list N) (hs : list (list N * list (list N))) : option (list (list N)) :=
  match find (fun e => iequals (fst e) name) hs with Some e => Some (snd e) | None => None end.

(** client.h:1535-1551 the authority *)
Definition q_authority (r : crequest) : list N :=
  match q_host r with
  | [] => match q_find (str "host") (q_headers r) with Some (v :: _) => v | _ => [] end
  | h =>
    let bracketed := (2 <=? length h)%nat && (match h with c :: _ => c =? 91 | [] => false end)
                     && (match rev h with c :: _ => c =? 93 | [] => false end) in
    let h := if negb bracketed && existsb (N.eqb 58) h then [91] ++ h ++ [93] else h in
    match q_port r with [] => h | port => h ++ [58] ++ port end
  end.
(** client.h:1554-1561 *)
Definition q_target (r : crequest) : list N :=
  (match q_path r with [] => [47] | p => p end) ++ (match q_query r with [] => [] | q => 63 :: q end).

(** client.h:1572-1589 *)
Definition q_forbidden : list (list N) :=
  [str "connection"; str "proxy-connection"; str "keep-alive"; str "transfer-encoding"; str "upgrade"; str "host"; str "te"; str "content-length"].
Definition q_skip (name value : list N) : bool :=
  existsb (beq name) q_forbidden && negb (beq name (str "te") && is_valid_request_te_value value).
Definition q_fields (hs : list (list N * list (list N))) : list HpackModel.field :=
  flat_map (fun h : list N * list (list N) =>
              flat_map (fun v => let n := clower (fst h) in
                                 if q_skip n v then [] else if is_valid_header_field n v then [mk_field n v false] else [])
                       (snd h)) hs.
(** client.h:1598-1613: whether trailers are announced, and their names *)
Definition q_trailer_values (hs : list (list N * list (list N))) : list (list N) :=
  flat_map (fun h : list N * list (list N) => if beq (clower (fst h)) (str "trailer") then snd h else []) hs.
Definition q_wtrail (r : crequest) : bool := match q_trailer_values (q_headers r) with [] => false | _ => true end.
Definition q_tnames (r : crequest) : list (list N) :=
  flat_map (fun v => match split_and_trim_header_list v 44 with Some l => l | None => [] end) (q_trailer_values (q_headers r)).

Definition no_bytes (l : list N) : bool := match l with [] => true | _ => false end.
(** client.h:1520-1621 prepare_request_headers *)
Definition q_head (r : crequest) : list HpackModel.field :=
  mk_field (str ":method") (q_method r) false
  :: mk_field (str ":scheme") (match q_scheme r with [] => str "https" | sc => sc end) false
  :: (if no_bytes (q_authority r) then [] else [mk_field (str ":authority") (q_authority r) false])
  ++ mk_field (str ":path") (q_target r) false
  :: q_fields (q_headers r)
  ++ (if negb (no_bytes (q_body r)) && negb (q_wtrail r)
      then [mk_field (str "content-length") (cdec (clen (q_body r))) false] else []).

(** ** The response head: client.h:2202-2311 parse_and_validate_headers_into_response.
    The loop over the fields; inl is the error code of the reset. *)
Record phead := mk_ph { ph_status : list N; ph_clen : option N; ph_hdrs : list (list N * list N) }.
Fixpoint resp_head (head : bool) (trailers started : bool) (p : phead) (fs : list HpackModel.field) : N + phead :=
  match fs with
  | [] => inr p
  | f :: r =>
    let name := f_name f in let value := f_value f in
    match name with
    | [] => inl PROTOCOL_ERROR
    | c :: _ =>
      if c =? 58 then
        if trailers then inl PROTOCOL_ERROR
        else if started then inl PROTOCOL_ERROR
        else if beq name (str ":status") then
          if negb (no_bytes (ph_status p)) then inl PROTOCOL_ERROR
          else if negb (length value =? 3)%nat then inl PROTOCOL_ERROR
          else if negb (forallb (fun c => (48 <=? c) && (c <=? 57)) value) then inl PROTOCOL_ERROR
          else resp_head head trailers started (mk_ph value (ph_clen p) (ph_hdrs p)) r
        else inl PROTOCOL_ERROR
      else if negb (is_valid_header_field name value) then inl PROTOCOL_ERROR
      else if is_forbidden_header (clower name) || beq (clower name) (str "te") then inl PROTOCOL_ERROR
      else
        match (if beq (clower name) (str "content-length") then
                 match parse_content_length value with
                 | None => inl PROTOCOL_ERROR
                 | Some n =>
                   if (match ph_clen p with Some c => negb (c =? n) | None => false end) then inl PROTOCOL_ERROR
                   else if negb head && (C_MAX_BODY <? n) then inl ENHANCE_YOUR_CALM
                   else inr (Some n)
                 end
               else inr (ph_clen p)) with
        | inl code => inl code
        | inr cl => resp_head head trailers true (mk_ph (ph_status p) cl (ph_hdrs p ++ [(name, value)])) r
        end
    end
  end.

(** client.h:34-50 detail::parse_status_code; std::from_chars on an int also reads a leading minus sign, which the
    caller has excluded, and three digits cannot overflow. *)
Fixpoint status_digits (acc : N) (s : list N) : option N :=
  match s with
  | [] => Some acc
  | c :: r => if (48 <=? c) && (c <=? 57) then status_digits (acc * 10 + (c - 48)) r else None
  end.
Definition parse_status_code (s : list N) : option N :=
  if negb (length s =? 3)%nat then None
  else match status_digits 0 s with
       | None => None
       | Some code => if (code <? 100) || (999 <? code) then None else Some code
       end.

Definition pairs (fs : list HpackModel.field) : list (list N * list N) := map (fun f => (f_name f, f_value f)) fs.

(** client.h:2202-2311: the new stream context, or the error code *)
Definition parse_response_head (x : cstream) (fs : list HpackModel.field) (trailers : bool) : N + cstream :=
  if negb (validate_pseudo_header_order (pairs fs)) then inl PROTOCOL_ERROR
  else if negb trailers && negb (validate_response_pseudo_headers (pairs fs)) then inl PROTOCOL_ERROR
  else match resp_head (beq (cs_method x) (str "HEAD")) trailers false (mk_ph [] (cs_clen x) (cs_hdrs x)) fs with
  | inl code => inl code
  | inr p =>
    let y := set_cs_clen (ph_clen p) (set_cs_hdrs (ph_hdrs p) x) in
    if trailers then inr y
    else if no_bytes (ph_status p) then inl PROTOCOL_ERROR
    else match parse_status_code (ph_status p) with
         | None => inl PROTOCOL_ERROR
         | Some code => inr (set_cs_status code y)
         end
  end.

(** ** Sending the request body *)

(** One DATA frame carrying body[off, off+n): client.h:1669-1682 *)
Definition cdata_frame (sid : N) (body : list N) (off n : nat) (fin : bool) : frame :=
  mk_frame (mk_h T_DATA (if fin then FLAG_END_STREAM else 0) sid) (PData (firstn n (skipn off body)) 0).
Definition cu32 (z : Z) : N := Z.to_N z.

(** client.h:1637-1703: the loop of _send_request_body_data_internal; the booleans: returned early?, and the
    value returned then.  Windows are positive where they are converted to size_t. *)
Fixpoint cbody_loop (fuel : nat) (sid : N) (body : list N) (s : client) : (client * bool) + client :=
  match fuel with
  | O => inl (set_cl_ub true s, false)
  | S k =>
    match cget s sid with
    | None => inl (set_cl_ub true s, false)
    | Some x =>
      if (cs_off x <? length body)%nat then
        if negb (calive s) then inl (cupd sid (set_cs_pend true) s, false)
        else if (cl_csend s <=? 0)%Z || (cs_peer x <=? 0)%Z then inl (cupd sid (set_cs_pend true) s, true)
        else
          let rem := N.of_nat (length body - cs_off x) in
          let chunk := N.min (N.min rem (cl_pmax s)) (N.min (cu32 (cl_csend s)) (cu32 (cs_peer x))) in
          if (chunk =? 0) && (0 <? rem) then inl (cupd sid (set_cs_pend true) s, true)
          else
            let n := N.to_nat chunk in
            let off' := (cs_off x + n)%nat in
            let fin := (off' =? length body)%nat && negb (cs_wtrail x) in
            let s := cupd sid (set_cs_off off') s in
            let s := cemit (cdata_frame sid body (cs_off x) n fin) s in
            if negb (cl_ok s) then inl (cupd sid (fun x => set_cs_pend true (set_cs_off (cs_off x - n) x)) s, false)
            else
              let s := set_cl_csend (cl_csend s - Z.of_N chunk)%Z s in
              let s := cupd sid (fun x => set_cs_peer (cs_peer x - Z.of_N chunk)%Z x) s in
              let s := if fin then
                         cupd sid (fun x => set_cs_state (match cs_state x with
                                                          | OPEN => HALF_CLOSED_LOCAL
                                                          | HALF_CLOSED_REMOTE => CLOSED
                                                          | st => st
                                                          end) (set_cs_ends true x)) s
                       else s in
              cbody_loop k sid body s
      else inr s
    end
  end.

(** client.h:1623-1708 _send_request_body_data_internal *)
Definition csend_body (sid : N) (s : client) : client * bool :=
  match cget s sid with
  | None => (set_cl_ub true s, false)
  | Some x =>
    let body := q_body (cs_req x) in
    if negb (cs_pend x) || no_bytes body then (cupd sid (set_cs_pend false) s, true)
    else match cbody_loop (S (length body)) sid body s with
         | inl res => res
         | inr s => (cupd sid (fun x => set_cs_pend (cs_off x <? length body)%nat x) s, true)
         end
  end.

(** client.h:2353-2388: the trailer fields sent automatically *)
Definition ctrailer_fields (x : cstream) : list HpackModel.field :=
  flat_map (fun n => if (match n with [] => true | c :: _ => c =? 58 end) then []
                     else match q_find n (q_headers (cs_req x)) with
                          | Some vs => map (fun v => mk_field n v false) vs
                          | None => []
                          end) (cs_tnames x).

Section CALLBACKS.
(** What happens while the application runs one of its callbacks. *)
Variable K : client -> client.
Definition call (i : citem) (s : client) : client := K (cnote i s).

(** client.h:1733-1762 send_rst_stream (on_stream_error 1928-1932 is the same) *)
Definition crst (sid code : N) (s : client) : client :=
  if negb (cl_ok s) || (sid =? 0) then s
  else
    let s := cemit (mk_frame (mk_h T_RST_STREAM 0 sid) (PRst code)) s in
    match cget s sid with
    | None => s
    | Some x =>
      let s := cupd sid (fun x => set_cs_err code (set_cs_rsts true x)) s in
      let s := if negb (cs_disp x) then call (LErr sid code) s else s in
      match cget s sid with
      | None => set_cl_ub true s                       (* it->second after the callback erased the context *)
      | Some _ => ctry_close sid s
      end
    end.

(** client.h:1769-1808 send_goaway_and_close *)
Definition cgoaway (code : N) (s : client) : client :=
  if negb (cl_ok s) then s
  else
    let last := match cl_streams s with [] => 0 | _ => cl_last s end in
    let s := cemit (mk_frame (mk_h T_GOAWAY 0 0) (PGoaway last code [])) s in
    let s := set_cl_active false s in
    set_cl_ok false (call (LBye code last) s).

(** client.h:1990-2076 process_complete_response_if_ready.  The response is moved out of the context; the model
    leaves it in place, since nothing reads it afterwards. *)
Definition process_ready (sid : N) (s : client) : client :=
  match cget s sid with
  | None => set_cl_ub true s
  | Some x =>
    if cs_disp x then s
    else if negb (cs_main x) then s
    else if negb (cs_endr x || cs_rstr x) then s
    else if cs_texp x && negb (cs_trecv x) && negb (cs_rstr x) then s
    else if length_mismatch x then crst sid PROTOCOL_ERROR s
    else
      let s := cupd sid (fun x => set_cs_state (if cs_ends x && cs_endr x then CLOSED
                                                else if cs_endr x then HALF_CLOSED_REMOTE else cs_state x)
                                               (set_cs_disp true x)) s in
      let s := set_cl_ctl 0 s in
      let s := call (LResp sid (cs_app x) (mk_crs (cs_status x) (cs_hdrs x) (cs_body x))
                           (if cs_rstr x then cs_err x else NO_ERROR)) s in
      ctry_close sid s
  end.

(** client.h:2314-2428 try_send_pending_data_for_stream *)
Definition ctry_send (sid : N) (s : client) : client :=
  match cget s sid with
  | None => set_cl_ub true s
  | Some x =>
    if negb (calive s) then s
    else if negb (in_state (cs_state x) OPEN) && negb (in_state (cs_state x) HALF_CLOSED_LOCAL) then s
    else
      let '(s, stop) :=
        if cs_pend x then
          let '(s, okb) := csend_body sid s in
          if negb okb then
            (match cget s sid with
             | None => set_cl_ub true s
             | Some x => if in_state (cs_state x) CLOSED then ctry_close sid s else s
             end, true)
          else match cget s sid with
               | None => (set_cl_ub true s, true)
               | Some x => (s, cs_pend x)
               end
        else (s, false) in
      if stop then s
      else
        match cget s sid with
        | None => set_cl_ub true s
        | Some x =>
          let '(s, stop) :=
            if cs_wtrail x && negb (cs_ends x) then
              match (match ctrailer_fields x with
                     | [] => Some (s, [], true)
                     | fs => match encode (cl_enc s) fs with
                             | None => None
                             | Some (e, out, okb) => Some (set_cl_enc e s, out, okb)
                             end
                     end) with
              | None => (set_cl_ub true s, true)
              | Some (s, _, false) => (crst sid COMPRESSION_ERROR s, true)
              | Some (s, block, true) =>
                let s := cemit (mk_frame (mk_h T_HEADERS (N.lor FLAG_END_HEADERS FLAG_END_STREAM) sid) (PHeaders block None)) s in
                if cl_ok s then
                  (cupd sid (fun x => set_cs_wtrail false
                                        (set_cs_state (match cs_state x with
                                                       | OPEN | HALF_CLOSED_LOCAL => HALF_CLOSED_LOCAL
                                                       | HALF_CLOSED_REMOTE => CLOSED
                                                       | st => st
                                                       end) (set_cs_ends true x))) s, false)
                else (cupd sid (set_cs_pend true) s, false)
              end
            else (s, false) in
          if stop then s
          else match cget s sid with
               | None => set_cl_ub true s
               | Some x => if in_state (cs_state x) CLOSED then ctry_close sid s else s
               end
        end
  end.

(** base.h:715-758 send_headers_with_continuation: no callback runs in between, so ok() does not change; when it is
    already false only the first frame is written. *)
Definition cheader_block (sid flags : N) (block : list N) (s : client) : client * bool :=
  match send_headers sid flags (cl_pmax s) block with
  | [] => (s, true)
  | f :: fs => if cl_ok s then (fold_left (fun s f => cemit f s) (f :: fs) s, true) else (cemit f s, false)
  end.

(** client.h:1110-1223 send_request; the ghost items LReq and LRefuse record its outcome *)
Definition send_request (r : crequest) (app : N) (s : client) : client * bool :=
  if negb (cl_ok s) || negb (cl_active s) || cl_rga s then (cnote (LRefuse app) s, false)
  else if cl_pmcs s <=? cactive_count s then (cnote (LRefuse app) s, false)
  else
    let sid := cl_next s in
    let s := set_cl_last sid (set_cl_next (sid + 2) s) in
    match cget s sid with
    | Some _ => (cnote (LRefuse app) s, false)
    | None =>
      let x := set_cs_tnames (q_tnames r) (set_cs_wtrail (q_wtrail r) (set_cs_method (q_method r) (set_cs_app app
                 (new_cstream (Z.of_N (cl_ipeer s)) 65535)))) in
      let s := set_cl_streams ((sid, x) :: cl_streams s) s in
      match encode (cl_enc s) (q_head r) with
      | None => (set_cl_ub true s, false)
      | Some (e, _, false) => (cnote (LRefuse app) (cgoaway INTERNAL_ERROR (cerase sid (set_cl_enc e s))), false)
      | Some (e, block, true) =>
        let s := set_cl_enc e s in
        let has_body := negb (no_bytes (q_body r)) in
        let fin := negb has_body && negb (q_wtrail r) in
        let s := cnote (LReq sid app r) s in
        let '(s, sent) := cheader_block sid (if fin then FLAG_END_STREAM else 0) block s in
        if negb sent then (cerase sid s, false)
        else
          let s := cupd sid (fun x => set_cs_state (if fin then HALF_CLOSED_LOCAL else OPEN) (set_cs_ends fin x)) s in
          let s := cupd sid (fun x => set_cs_pend has_body
                                        (if has_body || q_wtrail r then set_cs_off 0%nat (set_cs_req r x) else x)) s in
          let '(s, okb) := if has_body then csend_body sid s else (s, true) in
          if negb okb then (s, false)
          else match cget s sid with
               | None => (set_cl_ub true s, false)
               | Some x => (if in_state (cs_state x) CLOSED then ctry_close sid s else s, true)
               end
      end
    end.

(** client.h:1250-1273: the trailer fields of send_request_trailers; None is a refusal *)
Fixpoint api_trailer_fields (hs : list (list N * list (list N))) : option (list HpackModel.field) :=
  match hs with
  | [] => Some []
  | (n, vs) :: r =>
    if (match n with [] => true | c :: _ => c =? 58 end) then None
    else if is_forbidden_header (clower n) || beq (clower n) (str "te") || beq (clower n) (str "trailer")
            || beq (clower n) (str "content-length") then None
    else if negb (forallb (is_valid_header_field n) vs) then None
    else match api_trailer_fields r with
         | None => None
         | Some fs => Some (map (fun v => mk_field n v false) vs ++ fs)
         end
  end.

(** client.h:1236-1304 send_request_trailers *)
Definition send_request_trailers (sid : N) (t : list (list N * list (list N))) (s : client) : client * bool :=
  match cget s sid with
  | None => (s, false)
  | Some x =>
    if cs_ends x then (s, false)
    else if negb (cs_wtrail x) then (crst sid PROTOCOL_ERROR s, false)
    else match api_trailer_fields t with
    | None => (crst sid PROTOCOL_ERROR s, false)
    | Some fs =>
      match encode (cl_enc s) fs with
      | None => (set_cl_ub true s, false)
      | Some (e, _, false) => (crst sid COMPRESSION_ERROR (set_cl_enc e s), false)
      | Some (e, block, true) =>
        let s := cemit (mk_frame (mk_h T_HEADERS (N.lor FLAG_END_HEADERS FLAG_END_STREAM) sid) (PHeaders block None)) (set_cl_enc e s) in
        let s := cupd sid (fun x => set_cs_state (match cs_state x with
                                                  | OPEN => HALF_CLOSED_LOCAL
                                                  | HALF_CLOSED_REMOTE => CLOSED
                                                  | st => st
                                                  end) (set_cs_ends true x)) s in
        match cget s sid with
        | None => (set_cl_ub true s, false)
        | Some x => (if in_state (cs_state x) CLOSED then ctry_close sid s else s, true)
        end
      end
    end
  end.

Definition run_ccmd (c : ccmd) (s : client) : client :=
  match c with
  | CSend r app => fst (send_request r app s)
  | CTrailers sid t => fst (send_request_trailers sid t s)
  end.
Definition run_ccmds (cs : list ccmd) (s : client) : client := fold_left (fun s c => run_ccmd c s) cs s.

(** ** Frame handlers *)

(** client.h:1463-1483 handle_data_for_unknown_stream *)
Definition unknown_data (sid size : N) (s : client) : client :=
  let s := if negb (N.odd sid) then crst sid STREAM_CLOSED s else cgoaway PROTOCOL_ERROR s in
  let s := set_cl_cproc (cl_cproc s + size) (set_cl_crecv (cl_crecv s - Z.of_N size)%Z s) in
  ccond_wu s.

(** client.h:1490-1512 handle_data_for_closed_stream *)
Definition closed_data (sid size : N) (s : client) : client :=
  let s := if (0 <? sid) && (sid <=? cl_last s) then cgoaway STREAM_CLOSED s else s in
  let s := set_cl_cproc (cl_cproc s + size) (set_cl_crecv (cl_crecv s - Z.of_N size)%Z s) in
  let s := cupd sid (fun x => set_cs_proc (cs_proc x + size) (set_cs_local (cs_local x - Z.of_N size)%Z x)) s in
  ccond_wu (cstream_wu sid s).

(** client.h:316-432 on(DataFrame).  get_payload_length() is the size of the payload, padding included. *)
Definition con_data (h : fhdr) (d : list N) (pad : N) (s : client) : client :=
  if negb (cl_ok s) then s else
  let sid := get_stream_id h in
  let size := clen d + pad in
  match cget s sid with
  | None => unknown_data sid size s
  | Some x =>
    if in_state (cs_state x) CLOSED || cs_rsts x || cs_rstr x then closed_data sid size s
    else if negb (in_state (cs_state x) OPEN) && negb (in_state (cs_state x) HALF_CLOSED_LOCAL) then crst sid STREAM_CLOSED s
    else if (cs_local x <? Z.of_N size)%Z then cgoaway FLOW_CONTROL_ERROR (crst sid FLOW_CONTROL_ERROR s)
    else
      let s := cupd sid (fun x => set_cs_proc (cs_proc x + size) (set_cs_local (cs_local x - Z.of_N size)%Z x)) s in
      if (cl_crecv s <? Z.of_N size)%Z then cgoaway FLOW_CONTROL_ERROR s
      else
        let s := set_cl_ctl 0 (set_cl_cproc (cl_cproc s + size) (set_cl_crecv (cl_crecv s - Z.of_N size)%Z s)) in
        let s := if no_bytes d then s else cupd sid (fun x => set_cs_body (cs_body x ++ d) x) s in
        let bs := clen (cs_body x) + clen d in
        if negb (no_bytes d) && (C_MAX_BODY <? bs) then crst sid ENHANCE_YOUR_CALM s
        else if negb (no_bytes d) && (match cs_clen x with Some n => n <? bs | None => false end) then crst sid PROTOCOL_ERROR s
        else if has_flag (h_flags h) FLAG_END_STREAM then
          let s := cupd sid (fun x => set_cs_state (match cs_state x with
                                                    | OPEN => HALF_CLOSED_REMOTE
                                                    | HALF_CLOSED_LOCAL => CLOSED
                                                    | st => st
                                                    end) (set_cs_endr true x)) s in
          let s := ccond_wu (cstream_wu sid s) in
          match cget s sid with
          | None => set_cl_ub true s
          | Some y =>
            if negb (cs_texp y) && length_mismatch y then crst sid PROTOCOL_ERROR s
            else
              let s := if negb (cs_texp y) then process_ready sid s else s in
              match cget s sid with
              | None => s
              | Some z => if in_state (cs_state z) CLOSED then ctry_close sid s else s
              end
          end
        else
          let s := ccond_wu (cstream_wu sid s) in
          match cget s sid with
          | None => set_cl_ub true s
          | Some z => if in_state (cs_state z) CLOSED then ctry_close sid s else s
          end
  end.

Definition is_trailer_name (n : list N) : bool := beq n (str "trailer") || beq n (str "Trailer").

(** client.h:2111-2166 and 518-579: decoding and applying a complete header block.  [expect] says whether a Trailer
    field makes the client wait for trailers.  false: the handler returned. *)
Definition apply_block (sid : N) (expect : cstream -> bool) (s : client) : client * bool :=
  let '(d, res) := decode (cl_dec s) (cl_frag s) in
  let s := set_cl_dec d s in
  match res with
  | OUndef => (set_cl_ub true s, false)
  | OFail _ => (cclear (cgoaway COMPRESSION_ERROR (crst sid COMPRESSION_ERROR s)), false)
  | OOk fs =>
    let s := cclear s in
    match cget s sid with
    | None => (set_cl_ub true s, false)
    | Some x =>
      match parse_response_head x fs (cs_main x) with
      | inl code => (crst sid code s, false)
      | inr y =>
        let s := cnote (LBlock sid fs) s in
        let y := if cs_main x then set_cs_trecv true y
                 else set_cs_main true (if expect y && existsb (fun f => is_trailer_name (f_name f)) fs then set_cs_texp true y else y) in
        let y := match cs_state y with IDLE => set_cs_state OPEN y | RESERVED_REMOTE => set_cs_state HALF_CLOSED_LOCAL y | _ => y end in
        (cupd sid (fun _ => y) s, true)
      end
    end
  end.

(** client.h:2083-2193 process_incoming_headers *)
Definition incoming_headers (sid : N) (h : fhdr) (frag : list N) (s : client) : client :=
  match cget s sid with
  | None => set_cl_ub true s
  | Some x =>
    let end_stream := has_flag (h_flags h) FLAG_END_STREAM in
    let end_headers := has_flag (h_flags h) FLAG_END_HEADERS in
    if cs_endr x && negb (cs_texp x) then crst sid PROTOCOL_ERROR s
    else if cs_main x && negb (cs_texp x) then crst sid PROTOCOL_ERROR s
    else if cs_cont x then cgoaway PROTOCOL_ERROR (crst sid PROTOCOL_ERROR s)
    else
      let s := set_cl_frag (cl_frag s ++ frag) (set_cl_hsid sid s) in
      if C_MAX_HEADER_BLOCK <? clen (cl_frag s) then cclear (cgoaway ENHANCE_YOUR_CALM s)
      else
        let '(s, go) :=
          if end_headers then apply_block sid (fun _ => negb end_stream) s
          else (cupd sid (set_cs_cont true) s, true) in
        if negb go then s
        else
          let s :=
            if end_stream then
              cupd sid (fun x =>
                let x := set_cs_endr true x in
                let x := if negb (cs_main x) && end_headers then set_cs_main true x else x in
                let x := if cs_texp x && negb (cs_trecv x) && end_headers then set_cs_trecv true x else x in
                if cs_ends x then set_cs_state CLOSED x
                else match cs_state x with OPEN => set_cs_state HALF_CLOSED_REMOTE x | _ => x end) s
            else s in
          process_ready sid s
  end.

(** client.h:438-468 on(HeadersFrame) *)
Definition con_headers (h : fhdr) (frag : list N) (s : client) : client :=
  let sid := get_stream_id h in
  match cget s sid with
  | Some _ => incoming_headers sid h frag s
  | None =>
    if N.odd sid && (cl_last s <? sid) then cgoaway PROTOCOL_ERROR s
    else crst sid STREAM_CLOSED s
  end.

(** client.h:474-589 on(ContinuationFrame) *)
Definition con_continuation (h : fhdr) (frag : list N) (s : client) : client :=
  let sid := get_stream_id h in
  if (cl_hsid s =? 0) || negb (cl_hsid s =? sid) then cgoaway PROTOCOL_ERROR s
  else match cget s sid with
  | None => cclear (cgoaway INTERNAL_ERROR s)
  | Some x =>
    if negb (cs_cont x) then cclear (cgoaway PROTOCOL_ERROR (crst sid PROTOCOL_ERROR s))
    else
      let s := set_cl_contn (cl_contn s + 1) s in
      if C_MAX_CONT <? cl_contn s then cclear (cgoaway ENHANCE_YOUR_CALM s)
      else
        let s := set_cl_frag (cl_frag s ++ frag) s in
        if C_MAX_HEADER_BLOCK <? clen (cl_frag s) then cclear (cgoaway ENHANCE_YOUR_CALM s)
        else if has_flag (h_flags h) FLAG_END_HEADERS then
          let s := cupd sid (set_cs_cont false) s in
          let '(s, go) := apply_block sid (fun y => negb (cs_endr y)) s in
          if negb go then s else process_ready sid s
        else process_ready sid s
  end.

(** client.h:1037-1046, 1876-1885: sending what the given streams still have to send *)
Fixpoint cflush (order : list N) (s : client) : client :=
  match order with
  | [] => s
  | sid :: r =>
    match cget s sid with
    | None => cflush r s
    | Some x =>
      if cs_pend x then
        let s := ctry_send sid s in
        if negb (cl_active s) then s else cflush r s
      else cflush r s
    end
  end.

(** client.h:1848-1887 update_initial_peer_window_size.  If some window overflows, the connection is closed at once;
    the windows changed before that are not tracked, as nothing reads them afterwards. *)
Definition cshift (delta : Z) (p : N * cstream) : N * cstream :=
  if N.odd (fst p) then (fst p, set_cs_peer (cs_peer (snd p) + delta)%Z (snd p)) else p.
Definition cset_initial (v : N) (ord : list N -> list N) (s : client) : client :=
  let delta := (Z.of_N v - Z.of_N (cl_ipeer s))%Z in
  let s := set_cl_ipeer v s in
  if (delta =? 0)%Z then s
  else if existsb (fun p => N.odd (fst p) && (2147483647 <? cs_peer (snd p) + delta)%Z) (cl_streams s) then cgoaway FLOW_CONTROL_ERROR s
  else
    let unblocked := map fst (filter (fun p => N.odd (fst p) && (cs_peer (snd p) <=? 0)%Z && (0 <? cs_peer (snd p) + delta)%Z && cs_pend (snd p))
                                     (cl_streams s)) in
    cflush (ord unblocked) (set_cl_streams (map (cshift delta) (cl_streams s)) s).

(** client.h:623-667: the entries of a SETTINGS frame.  inl: the handler returned. *)
Fixpoint capply_settings (es : list (N * N)) (ord : list N -> list N) (s : client) : client + client :=
  match es with
  | [] => inr s
  | (id, v) :: r =>
    match validate_setting id v with
    | Some code => inl (cgoaway code s)
    | None =>
      let s := cnote (LSet id v) s in
      let s :=
        if id =? 1 then match enc_set_peer_max (cl_enc s) v with None => set_cl_ub true s | Some e => set_cl_enc e s end
        else if id =? 3 then set_cl_pmcs v s
        else if id =? 4 then cset_initial v ord s
        else if id =? 5 then set_cl_pmax (clamp_peer_max_frame_size v) s
        else s in
      capply_settings r ord s
    end
  end.

(** client.h:592-684 on(SettingsFrame) *)
Definition con_settings (h : fhdr) (es : list (N * N)) (ord : list N -> list N) (s : client) : client :=
  if negb (calive s) then s
  else if negb (get_stream_id h =? 0) then cgoaway PROTOCOL_ERROR s
  else if has_flag (h_flags h) FLAG_ACK then
    match es with [] => s | _ => cgoaway FRAME_SIZE_ERROR s end
  else match capply_settings es ord s with
  | inl s => s
  | inr s =>
    let s := set_cl_ctl (cl_ctl s + 1) s in
    if C_MAX_REPLIES <? cl_ctl s then cgoaway ENHANCE_YOUR_CALM s
    else cemit (mk_frame (mk_h T_SETTINGS FLAG_ACK 0) (PSettings [])) s
  end.

(** client.h:687-719 on(RstStreamFrame) *)
Definition con_rst (h : fhdr) (code : N) (s : client) : client :=
  if negb (calive s) then s else
  let sid := get_stream_id h in
  if sid =? 0 then cgoaway PROTOCOL_ERROR s
  else match cget s sid with
  | Some x =>
    let s := cupd sid (fun x => set_cs_state CLOSED (set_cs_err code (set_cs_rstr true x))) s in
    let s := if negb (cs_disp x) then call (LErr sid code) s else s in
    ctry_close sid s
  | None => if N.odd sid && (cl_last s <? sid) then cgoaway PROTOCOL_ERROR s else s
  end.

(** client.h:722-753 on(PushPromiseFrame): SETTINGS_ENABLE_PUSH is 0 in _our_settings and nothing changes it, so
    lines 754-878 are dead code and are not modelled. *)
Definition con_push (promised : N) (s : client) : client :=
  if negb (calive s) then s else cgoaway PROTOCOL_ERROR s.

(** client.h:946-959: the loop of on(GoAwayFrame) *)
Fixpoint cgoaway_streams (code : N) (order : list N) (s : client) : client :=
  match order with
  | [] => s
  | sid :: r =>
    match cget s sid with
    | None => cgoaway_streams code r s
    | Some _ =>
      let s := cupd sid (fun x => set_cs_state CLOSED (set_cs_rstr true (set_cs_err code x))) s in
      cgoaway_streams code r (cerase sid (process_ready sid s))
    end
  end.

(** client.h:921-995 on(GoAwayFrame) *)
Definition con_goaway (last code : N) (ord : list N -> list N) (s : client) : client :=
  let s := set_cl_rga true s in
  let ids := map fst (filter (fun p => (last <? fst p) && N.odd (fst p)) (cl_streams s)) in
  let s := cgoaway_streams code (ord ids) s in
  let s := call (LBye code last) s in
  if negb (code =? NO_ERROR) then set_cl_ok false s
  else if call_closed last s then set_cl_ok false s
  else s.

(** client.h:998-1083 on(WindowUpdateFrame) *)
Definition con_window_update (h : fhdr) (inc : N) (ord : list N -> list N) (s : client) : client :=
  let sid := get_stream_id h in
  if inc =? 0 then
    if sid =? 0 then cgoaway PROTOCOL_ERROR s else crst sid PROTOCOL_ERROR s
  else if sid =? 0 then
    if (2147483647 - Z.of_N inc <? cl_csend s)%Z then cgoaway FLOW_CONTROL_ERROR s
    else
      let s := set_cl_csend (cl_csend s + Z.of_N inc)%Z s in
      cflush (ord (map fst (filter (fun p => cs_pend (snd p)) (cl_streams s)))) s
  else match cget s sid with
  | None => if N.odd sid && (cl_last s <? sid) then cgoaway PROTOCOL_ERROR s else s
  | Some x =>
    if in_state (cs_state x) IDLE then cgoaway PROTOCOL_ERROR s
    else if (2147483647 - Z.of_N inc <? cs_peer x)%Z then cgoaway FLOW_CONTROL_ERROR (crst sid FLOW_CONTROL_ERROR s)
    else
      let s := cupd sid (fun x => set_cs_peer (cs_peer x + Z.of_N inc)%Z x) s in
      if cs_pend x then ctry_send sid s else s
  end.

(** client.h:1086-1102 on(PriorityFrame) *)
Definition con_priority (h : fhdr) (s : client) : client :=
  if negb (cl_ok s) then s else if get_stream_id h =? 0 then cgoaway PROTOCOL_ERROR s else s.

(** client.h:2473-2493 on(PingFrame) *)
Definition con_ping (h : fhdr) (opaque : list N) (s : client) : client :=
  if has_flag (h_flags h) FLAG_ACK then s
  else
    let s := set_cl_ctl (cl_ctl s + 1) s in
    if C_MAX_REPLIES <? cl_ctl s then cgoaway ENHANCE_YOUR_CALM s
    else cemit (mk_frame (mk_h T_PING FLAG_ACK 0) (PPing opaque)) s.

(** One frame; the handler is chosen by the payload type (base.h:1074-1374). *)
Definition con_frame (f : frame) (ord : list N -> list N) (s : client) : client :=
  let h := fr_hdr f in
  match fr_pl f with
  | PData d pad => con_data h d pad s
  | PHeaders frag _ => con_headers h frag s
  | PCont frag => con_continuation h frag s
  | PSettings es => con_settings h es ord s
  | PRst code => con_rst h code s
  | PPush promised _ => con_push promised s
  | PGoaway last code _ => con_goaway last code ord s
  | PWindow inc => con_window_update h inc ord s
  | PPing o => con_ping h o s
  | PPriority _ => con_priority h s
  end.
End CALLBACKS.

(** A callback takes the next list of calls from the script and makes them; [n] bounds the nesting. *)
Fixpoint callback (n : nat) (s : client) : client :=
  match n with
  | O => s
  | S k => match cl_script s with
           | [] => s
           | cs :: r => run_ccmds (callback k) cs (set_cl_script r s)
           end
  end.

(** What can happen to a connection.  [script]: the calls made in the callbacks the event gives rise to. *)
Inductive cevent :=
| CFrame (f : frame) (script : list (list ccmd)) (ord : list N -> list N)
| CApp (c : ccmd) (script : list (list ccmd))      (* a call from outside any callback *)
| CNotOk.                                          (* not_ok() called by the framer or the transport; handle_framer_detected_error
                                                      (client.h:1895-1917) comes after it and then does nothing *)

Definition with_script (script : list (list ccmd)) (g : (client -> client) -> client -> client) (s : client) : client :=
  set_cl_script [] (g (callback (length script)) (set_cl_script script s)).

(** The framer delivers nothing once the protocol is not ok (base.h drive loop, 1077). *)
Definition cstep (s : client) (e : cevent) : client :=
  match e with
  | CFrame f script ord => if cl_ok s then with_script script (fun K s => con_frame K f ord (cnote (LIn f) s)) s else s
  | CApp c script => with_script script (fun K s => run_ccmd K c s) s
  | CNotOk => set_cl_ok false s
  end.

(** client.h:250-281, 1331-1350, 1366-1372: the constructor writes the preface and the SETTINGS; the map order of the entries is fixed here *)
Definition client_settings : list (N * N) := [(1, 4096); (2, 0); (4, 65535); (5, 16384)].
Definition client_start : client := cemit (mk_frame (mk_h T_SETTINGS 0 0) (PSettings client_settings)) client_zero.
Definition crun (es : list cevent) : client := fold_left cstep es client_start.
