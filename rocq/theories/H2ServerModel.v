(** Model of the HTTP/2 server side of a connection, 2/protocol/server.h (ServerHttp2Protocol), driven by
    the frames that the framer of H2Model hands over and by the calls of the application.
    Paths are relative to /repo/src/qbm/http.  Abstractions, all stated again where they occur:
    - the hash map of stream contexts is an association list; where the code iterates over it, the
      iteration order is supplied by the event, so every order is covered;
    - a C++ reference to a stream context is its identifier; reading or writing through a reference whose
      context has been erased sets [sv_ub], as does any out-of-range access reported by the HPACK model;
    - the text of log lines, of GOAWAY debug data and of error messages is dropped;
    - uint32_t counters are unbounded (none of them can reach 2^32 before the connection is closed);
    - the application is arbitrary: an event carries the calls it makes while a request is delivered to it. *)
From Verif Require Import Base UtilModel HpackTables HpackModel H2Model H2FieldModel.
Local Open Scope N_scope.

(** qb::http::Request as assembled by the server: the method text, the URI text handed to
    qb::io::uri::parse, the header fields added by add_header, the body. *)
Record request := mk_req { rq_method : list N; rq_uri : list N; rq_headers : list (list N * list N); rq_body : list N }.
Definition req_empty : request := mk_req [] [] [] [].

(** qb::http::Response: status code, header names with their values (in the iteration order of the map), body. *)
Record response := mk_resp { rs_status : N; rs_headers : list (list N * list (list N)); rs_body : list N }.
Definition resp_empty : response := mk_resp 200 [] [].

(** The request of send_push_promise: its method if initialised, and the parts of its URI. *)
Record promised := mk_prom { pr_method : option (list N); pr_scheme : list N; pr_host : list N; pr_port : list N;
                             pr_path : list N; pr_query : list N; pr_headers : list (list N * list (list N)) }.

(** The public entry points the application calls. *)
Inductive appcmd :=
| CRespond (sid : N) (r : response)               (* send_response *)
| CPush (assoc prom : N) (p : promised)           (* send_push_promise *)
| CReset (sid code : N)                           (* send_rst_stream *)
| CCleanup (order : list N).                      (* cleanup_idle_streams, iterating in this order *)

(** What the application does while a request is delivered: its calls, and whether it ends by throwing. *)
Notation appact := (list appcmd * bool)%type.

(** The chronicle of a connection. *)
Inductive item :=
| LIn (f : frame)                  (* frame received *)
| LOut (f : frame)                 (* frame written *)
| LSet (id v : N)                  (* received setting applied *)
| LCmd (c : appcmd)                (* call made by the application *)
| LReq (sid : N) (r : request)     (* request delivered to the application *)
| LErr (sid code : N)              (* Http2StreamErrorEvent *)
| LBye (code last : N).            (* Http2GoAwayEvent *)

(** 2/protocol/stream.h:117-148, 320-348 Http2ServerStream.  [st_act] is last_activity (milliseconds):
    nothing in server.h calls touch(), so it stays at the creation time.  Not kept: priority_info, created_at,
    trailers_expected (never set to true by the server), trailers_received, decoded_header_fields,
    last_received_*, response_sent and the other members server.h never reads. *)
Record stream := mk_st {
  st_state : sstate; st_local : Z; st_peer : Z; st_proc : N; st_endr : bool; st_ends : bool; st_rstr : bool; st_rsts : bool; st_main : bool; st_cont : bool; st_clen : option N; st_req : request; st_disp : bool; st_off : nat; st_resp : response; st_sent : list (list N); st_pend : bool; st_trail : bool; st_parent : N; st_act : N; st_err : N }.
Definition set_st_state v (s : stream) : stream :=
  mk_st v (st_local s) (st_peer s) (st_proc s) (st_endr s) (st_ends s) (st_rstr s) (st_rsts s) (st_main s) (st_cont s) (st_clen s) (st_req s) (st_disp s) (st_off s) (st_resp s) (st_sent s) (st_pend s) (st_trail s) (st_parent s) (st_act s) (st_err s).
Definition set_st_local v (s : stream) : stream :=
  mk_st (st_state s) v (st_peer s) (st_proc s) (st_endr s) (st_ends s) (st_rstr s) (st_rsts s) (st_main s) (st_cont s) (st_clen s) (st_req s) (st_disp s) (st_off s) (st_resp s) (st_sent s) (st_pend s) (st_trail s) (st_parent s) (st_act s) (st_err s).
Definition set_st_peer v (s : stream) : stream :=
  mk_st (st_state s) (st_local s) v (st_proc s) (st_endr s) (st_ends s) (st_rstr s) (st_rsts s) (st_main s) (st_cont s) (st_clen s) (st_req s) (st_disp s) (st_off s) (st_resp s) (st_sent s) (st_pend s) (st_trail s) (st_parent s) (st_act s) (st_err s).
Definition set_st_proc v (s : stream) : stream :=
  mk_st (st_state s) (st_local s) (st_peer s) v (st_endr s) (st_ends s) (st_rstr s) (st_rsts s) (st_main s) (st_cont s) (st_clen s) (st_req s) (st_disp s) (st_off s) (st_resp s) (st_sent s) (st_pend s) (st_trail s) (st_parent s) (st_act s) (st_err s).
Definition set_st_endr v (s : stream) : stream :=
  mk_st (st_state s) (st_local s) (st_peer s) (st_proc s) v (st_ends s) (st_rstr s) (st_rsts s) (st_main s) (st_cont s) (st_clen s) (st_req s) (st_disp s) (st_off s) (st_resp s) (st_sent s) (st_pend s) (st_trail s) (st_parent s) (st_act s) (st_err s).
Definition set_st_ends v (s : stream) : stream :=
  mk_st (st_state s) (st_local s) (st_peer s) (st_proc s) (st_endr s) v (st_rstr s) (st_rsts s) (st_main s) (st_cont s) (st_clen s) (st_req s) (st_disp s) (st_off s) (st_resp s) (st_sent s) (st_pend s) (st_trail s) (st_parent s) (st_act s) (st_err s).
Definition set_st_rstr v (s : stream) : stream :=
  mk_st (st_state s) (st_local s) (st_peer s) (st_proc s) (st_endr s) (st_ends s) v (st_rsts s) (st_main s) (st_cont s) (st_clen s) (st_req s) (st_disp s) (st_off s) (st_resp s) (st_sent s) (st_pend s) (st_trail s) (st_parent s) (st_act s) (st_err s).
Definition set_st_rsts v (s : stream) : stream :=
  mk_st (st_state s) (st_local s) (st_peer s) (st_proc s) (st_endr s) (st_ends s) (st_rstr s) v (st_main s) (st_cont s) (st_clen s) (st_req s) (st_disp s) (st_off s) (st_resp s) (st_sent s) (st_pend s) (st_trail s) (st_parent s) (st_act s) (st_err s).
Definition set_st_main v (s : stream) : stream :=
  mk_st (st_state s) (st_local s) (st_peer s) (st_proc s) (st_endr s) (st_ends s) (st_rstr s) (st_rsts s) v (st_cont s) (st_clen s) (st_req s) (st_disp s) (st_off s) (st_resp s) (st_sent s) (st_pend s) (st_trail s) (st_parent s) (st_act s) (st_err s).
Definition set_st_cont v (s : stream) : stream :=
  mk_st (st_state s) (st_local s) (st_peer s) (st_proc s) (st_endr s) (st_ends s) (st_rstr s) (st_rsts s) (st_main s) v (st_clen s) (st_req s) (st_disp s) (st_off s) (st_resp s) (st_sent s) (st_pend s) (st_trail s) (st_parent s) (st_act s) (st_err s).
Definition set_st_clen v (s : stream) : stream :=
  mk_st (st_state s) (st_local s) (st_peer s) (st_proc s) (st_endr s) (st_ends s) (st_rstr s) (st_rsts s) (st_main s) (st_cont s) v (st_req s) (st_disp s) (st_off s) (st_resp s) (st_sent s) (st_pend s) (st_trail s) (st_parent s) (st_act s) (st_err s).
Definition set_st_req v (s : stream) : stream :=
  mk_st (st_state s) (st_local s) (st_peer s) (st_proc s) (st_endr s) (st_ends s) (st_rstr s) (st_rsts s) (st_main s) (st_cont s) (st_clen s) v (st_disp s) (st_off s) (st_resp s) (st_sent s) (st_pend s) (st_trail s) (st_parent s) (st_act s) (st_err s).
Definition set_st_disp v (s : stream) : stream :=
  mk_st (st_state s) (st_local s) (st_peer s) (st_proc s) (st_endr s) (st_ends s) (st_rstr s) (st_rsts s) (st_main s) (st_cont s) (st_clen s) (st_req s) v (st_off s) (st_resp s) (st_sent s) (st_pend s) (st_trail s) (st_parent s) (st_act s) (st_err s).
Definition set_st_off v (s : stream) : stream :=
  mk_st (st_state s) (st_local s) (st_peer s) (st_proc s) (st_endr s) (st_ends s) (st_rstr s) (st_rsts s) (st_main s) (st_cont s) (st_clen s) (st_req s) (st_disp s) v (st_resp s) (st_sent s) (st_pend s) (st_trail s) (st_parent s) (st_act s) (st_err s).
Definition set_st_resp v (s : stream) : stream :=
  mk_st (st_state s) (st_local s) (st_peer s) (st_proc s) (st_endr s) (st_ends s) (st_rstr s) (st_rsts s) (st_main s) (st_cont s) (st_clen s) (st_req s) (st_disp s) (st_off s) v (st_sent s) (st_pend s) (st_trail s) (st_parent s) (st_act s) (st_err s).
Definition set_st_sent v (s : stream) : stream :=
  mk_st (st_state s) (st_local s) (st_peer s) (st_proc s) (st_endr s) (st_ends s) (st_rstr s) (st_rsts s) (st_main s) (st_cont s) (st_clen s) (st_req s) (st_disp s) (st_off s) (st_resp s) v (st_pend s) (st_trail s) (st_parent s) (st_act s) (st_err s).
Definition set_st_pend v (s : stream) : stream :=
  mk_st (st_state s) (st_local s) (st_peer s) (st_proc s) (st_endr s) (st_ends s) (st_rstr s) (st_rsts s) (st_main s) (st_cont s) (st_clen s) (st_req s) (st_disp s) (st_off s) (st_resp s) (st_sent s) v (st_trail s) (st_parent s) (st_act s) (st_err s).
Definition set_st_trail v (s : stream) : stream :=
  mk_st (st_state s) (st_local s) (st_peer s) (st_proc s) (st_endr s) (st_ends s) (st_rstr s) (st_rsts s) (st_main s) (st_cont s) (st_clen s) (st_req s) (st_disp s) (st_off s) (st_resp s) (st_sent s) (st_pend s) v (st_parent s) (st_act s) (st_err s).
Definition set_st_parent v (s : stream) : stream :=
  mk_st (st_state s) (st_local s) (st_peer s) (st_proc s) (st_endr s) (st_ends s) (st_rstr s) (st_rsts s) (st_main s) (st_cont s) (st_clen s) (st_req s) (st_disp s) (st_off s) (st_resp s) (st_sent s) (st_pend s) (st_trail s) v (st_act s) (st_err s).
Definition set_st_act v (s : stream) : stream :=
  mk_st (st_state s) (st_local s) (st_peer s) (st_proc s) (st_endr s) (st_ends s) (st_rstr s) (st_rsts s) (st_main s) (st_cont s) (st_clen s) (st_req s) (st_disp s) (st_off s) (st_resp s) (st_sent s) (st_pend s) (st_trail s) (st_parent s) v (st_err s).
Definition set_st_err v (s : stream) : stream :=
  mk_st (st_state s) (st_local s) (st_peer s) (st_proc s) (st_endr s) (st_ends s) (st_rstr s) (st_rsts s) (st_main s) (st_cont s) (st_clen s) (st_req s) (st_disp s) (st_off s) (st_resp s) (st_sent s) (st_pend s) (st_trail s) (st_parent s) (st_act s) v.

(** server.h:83-113 and the members of the framer it uses (base.h:469-473): _server_streams,
    _last_client_initiated_stream_id, _rst_stream_count, _control_reply_count, _continuation_frame_count,
    _current_header_block_fragment, _current_header_stream_id, _connection_send_window,
    _connection_receive_window, _initial_peer_window_size, _peer_max_concurrent_streams,
    _peer_max_header_list_size, _peer_allows_push, _initial_settings_sent, _connection_active,
    _graceful_shutdown_initiated, _last_peer_initiated_stream_id_processed_in_goaway, the two HPACK
    contexts, _peer_max_frame_size, ok(); then the clock, the chronicle (newest first) and the
    undefined-behaviour flag. *)
Record server := mk_sv {
  sv_streams : list (N * stream); sv_last : N; sv_rstc : N; sv_ctl : N; sv_contn : N; sv_frag : list N; sv_cursid : N; sv_csend : Z; sv_crecv : Z; sv_ipeer : N; sv_pmcs : N; sv_pmhls : N; sv_ppush : bool; sv_setsent : bool; sv_active : bool; sv_grace : bool; sv_gal : N; sv_dec : decoder; sv_enc : encoder; sv_pmax : N; sv_ok : bool; sv_now : N; sv_log : list item; sv_ub : bool }.
Definition set_sv_streams v (s : server) : server :=
  mk_sv v (sv_last s) (sv_rstc s) (sv_ctl s) (sv_contn s) (sv_frag s) (sv_cursid s) (sv_csend s) (sv_crecv s) (sv_ipeer s) (sv_pmcs s) (sv_pmhls s) (sv_ppush s) (sv_setsent s) (sv_active s) (sv_grace s) (sv_gal s) (sv_dec s) (sv_enc s) (sv_pmax s) (sv_ok s) (sv_now s) (sv_log s) (sv_ub s).
Definition set_sv_last v (s : server) : server :=
  mk_sv (sv_streams s) v (sv_rstc s) (sv_ctl s) (sv_contn s) (sv_frag s) (sv_cursid s) (sv_csend s) (sv_crecv s) (sv_ipeer s) (sv_pmcs s) (sv_pmhls s) (sv_ppush s) (sv_setsent s) (sv_active s) (sv_grace s) (sv_gal s) (sv_dec s) (sv_enc s) (sv_pmax s) (sv_ok s) (sv_now s) (sv_log s) (sv_ub s).
Definition set_sv_rstc v (s : server) : server :=
  mk_sv (sv_streams s) (sv_last s) v (sv_ctl s) (sv_contn s) (sv_frag s) (sv_cursid s) (sv_csend s) (sv_crecv s) (sv_ipeer s) (sv_pmcs s) (sv_pmhls s) (sv_ppush s) (sv_setsent s) (sv_active s) (sv_grace s) (sv_gal s) (sv_dec s) (sv_enc s) (sv_pmax s) (sv_ok s) (sv_now s) (sv_log s) (sv_ub s).
Definition set_sv_ctl v (s : server) : server :=
  mk_sv (sv_streams s) (sv_last s) (sv_rstc s) v (sv_contn s) (sv_frag s) (sv_cursid s) (sv_csend s) (sv_crecv s) (sv_ipeer s) (sv_pmcs s) (sv_pmhls s) (sv_ppush s) (sv_setsent s) (sv_active s) (sv_grace s) (sv_gal s) (sv_dec s) (sv_enc s) (sv_pmax s) (sv_ok s) (sv_now s) (sv_log s) (sv_ub s).
Definition set_sv_contn v (s : server) : server :=
  mk_sv (sv_streams s) (sv_last s) (sv_rstc s) (sv_ctl s) v (sv_frag s) (sv_cursid s) (sv_csend s) (sv_crecv s) (sv_ipeer s) (sv_pmcs s) (sv_pmhls s) (sv_ppush s) (sv_setsent s) (sv_active s) (sv_grace s) (sv_gal s) (sv_dec s) (sv_enc s) (sv_pmax s) (sv_ok s) (sv_now s) (sv_log s) (sv_ub s).
Definition set_sv_frag v (s : server) : server :=
  mk_sv (sv_streams s) (sv_last s) (sv_rstc s) (sv_ctl s) (sv_contn s) v (sv_cursid s) (sv_csend s) (sv_crecv s) (sv_ipeer s) (sv_pmcs s) (sv_pmhls s) (sv_ppush s) (sv_setsent s) (sv_active s) (sv_grace s) (sv_gal s) (sv_dec s) (sv_enc s) (sv_pmax s) (sv_ok s) (sv_now s) (sv_log s) (sv_ub s).
Definition set_sv_cursid v (s : server) : server :=
  mk_sv (sv_streams s) (sv_last s) (sv_rstc s) (sv_ctl s) (sv_contn s) (sv_frag s) v (sv_csend s) (sv_crecv s) (sv_ipeer s) (sv_pmcs s) (sv_pmhls s) (sv_ppush s) (sv_setsent s) (sv_active s) (sv_grace s) (sv_gal s) (sv_dec s) (sv_enc s) (sv_pmax s) (sv_ok s) (sv_now s) (sv_log s) (sv_ub s).
Definition set_sv_csend v (s : server) : server :=
  mk_sv (sv_streams s) (sv_last s) (sv_rstc s) (sv_ctl s) (sv_contn s) (sv_frag s) (sv_cursid s) v (sv_crecv s) (sv_ipeer s) (sv_pmcs s) (sv_pmhls s) (sv_ppush s) (sv_setsent s) (sv_active s) (sv_grace s) (sv_gal s) (sv_dec s) (sv_enc s) (sv_pmax s) (sv_ok s) (sv_now s) (sv_log s) (sv_ub s).
Definition set_sv_crecv v (s : server) : server :=
  mk_sv (sv_streams s) (sv_last s) (sv_rstc s) (sv_ctl s) (sv_contn s) (sv_frag s) (sv_cursid s) (sv_csend s) v (sv_ipeer s) (sv_pmcs s) (sv_pmhls s) (sv_ppush s) (sv_setsent s) (sv_active s) (sv_grace s) (sv_gal s) (sv_dec s) (sv_enc s) (sv_pmax s) (sv_ok s) (sv_now s) (sv_log s) (sv_ub s).
Definition set_sv_ipeer v (s : server) : server :=
  mk_sv (sv_streams s) (sv_last s) (sv_rstc s) (sv_ctl s) (sv_contn s) (sv_frag s) (sv_cursid s) (sv_csend s) (sv_crecv s) v (sv_pmcs s) (sv_pmhls s) (sv_ppush s) (sv_setsent s) (sv_active s) (sv_grace s) (sv_gal s) (sv_dec s) (sv_enc s) (sv_pmax s) (sv_ok s) (sv_now s) (sv_log s) (sv_ub s).
Definition set_sv_pmcs v (s : server) : server :=
  mk_sv (sv_streams s) (sv_last s) (sv_rstc s) (sv_ctl s) (sv_contn s) (sv_frag s) (sv_cursid s) (sv_csend s) (sv_crecv s) (sv_ipeer s) v (sv_pmhls s) (sv_ppush s) (sv_setsent s) (sv_active s) (sv_grace s) (sv_gal s) (sv_dec s) (sv_enc s) (sv_pmax s) (sv_ok s) (sv_now s) (sv_log s) (sv_ub s).
Definition set_sv_pmhls v (s : server) : server :=
  mk_sv (sv_streams s) (sv_last s) (sv_rstc s) (sv_ctl s) (sv_contn s) (sv_frag s) (sv_cursid s) (sv_csend s) (sv_crecv s) (sv_ipeer s) (sv_pmcs s) v (sv_ppush s) (sv_setsent s) (sv_active s) (sv_grace s) (sv_gal s) (sv_dec s) (sv_enc s) (sv_pmax s) (sv_ok s) (sv_now s) (sv_log s) (sv_ub s).
Definition set_sv_ppush v (s : server) : server :=
  mk_sv (sv_streams s) (sv_last s) (sv_rstc s) (sv_ctl s) (sv_contn s) (sv_frag s) (sv_cursid s) (sv_csend s) (sv_crecv s) (sv_ipeer s) (sv_pmcs s) (sv_pmhls s) v (sv_setsent s) (sv_active s) (sv_grace s) (sv_gal s) (sv_dec s) (sv_enc s) (sv_pmax s) (sv_ok s) (sv_now s) (sv_log s) (sv_ub s).
Definition set_sv_setsent v (s : server) : server :=
  mk_sv (sv_streams s) (sv_last s) (sv_rstc s) (sv_ctl s) (sv_contn s) (sv_frag s) (sv_cursid s) (sv_csend s) (sv_crecv s) (sv_ipeer s) (sv_pmcs s) (sv_pmhls s) (sv_ppush s) v (sv_active s) (sv_grace s) (sv_gal s) (sv_dec s) (sv_enc s) (sv_pmax s) (sv_ok s) (sv_now s) (sv_log s) (sv_ub s).
Definition set_sv_active v (s : server) : server :=
  mk_sv (sv_streams s) (sv_last s) (sv_rstc s) (sv_ctl s) (sv_contn s) (sv_frag s) (sv_cursid s) (sv_csend s) (sv_crecv s) (sv_ipeer s) (sv_pmcs s) (sv_pmhls s) (sv_ppush s) (sv_setsent s) v (sv_grace s) (sv_gal s) (sv_dec s) (sv_enc s) (sv_pmax s) (sv_ok s) (sv_now s) (sv_log s) (sv_ub s).
Definition set_sv_grace v (s : server) : server :=
  mk_sv (sv_streams s) (sv_last s) (sv_rstc s) (sv_ctl s) (sv_contn s) (sv_frag s) (sv_cursid s) (sv_csend s) (sv_crecv s) (sv_ipeer s) (sv_pmcs s) (sv_pmhls s) (sv_ppush s) (sv_setsent s) (sv_active s) v (sv_gal s) (sv_dec s) (sv_enc s) (sv_pmax s) (sv_ok s) (sv_now s) (sv_log s) (sv_ub s).
Definition set_sv_gal v (s : server) : server :=
  mk_sv (sv_streams s) (sv_last s) (sv_rstc s) (sv_ctl s) (sv_contn s) (sv_frag s) (sv_cursid s) (sv_csend s) (sv_crecv s) (sv_ipeer s) (sv_pmcs s) (sv_pmhls s) (sv_ppush s) (sv_setsent s) (sv_active s) (sv_grace s) v (sv_dec s) (sv_enc s) (sv_pmax s) (sv_ok s) (sv_now s) (sv_log s) (sv_ub s).
Definition set_sv_dec v (s : server) : server :=
  mk_sv (sv_streams s) (sv_last s) (sv_rstc s) (sv_ctl s) (sv_contn s) (sv_frag s) (sv_cursid s) (sv_csend s) (sv_crecv s) (sv_ipeer s) (sv_pmcs s) (sv_pmhls s) (sv_ppush s) (sv_setsent s) (sv_active s) (sv_grace s) (sv_gal s) v (sv_enc s) (sv_pmax s) (sv_ok s) (sv_now s) (sv_log s) (sv_ub s).
Definition set_sv_enc v (s : server) : server :=
  mk_sv (sv_streams s) (sv_last s) (sv_rstc s) (sv_ctl s) (sv_contn s) (sv_frag s) (sv_cursid s) (sv_csend s) (sv_crecv s) (sv_ipeer s) (sv_pmcs s) (sv_pmhls s) (sv_ppush s) (sv_setsent s) (sv_active s) (sv_grace s) (sv_gal s) (sv_dec s) v (sv_pmax s) (sv_ok s) (sv_now s) (sv_log s) (sv_ub s).
Definition set_sv_pmax v (s : server) : server :=
  mk_sv (sv_streams s) (sv_last s) (sv_rstc s) (sv_ctl s) (sv_contn s) (sv_frag s) (sv_cursid s) (sv_csend s) (sv_crecv s) (sv_ipeer s) (sv_pmcs s) (sv_pmhls s) (sv_ppush s) (sv_setsent s) (sv_active s) (sv_grace s) (sv_gal s) (sv_dec s) (sv_enc s) v (sv_ok s) (sv_now s) (sv_log s) (sv_ub s).
Definition set_sv_ok v (s : server) : server :=
  mk_sv (sv_streams s) (sv_last s) (sv_rstc s) (sv_ctl s) (sv_contn s) (sv_frag s) (sv_cursid s) (sv_csend s) (sv_crecv s) (sv_ipeer s) (sv_pmcs s) (sv_pmhls s) (sv_ppush s) (sv_setsent s) (sv_active s) (sv_grace s) (sv_gal s) (sv_dec s) (sv_enc s) (sv_pmax s) v (sv_now s) (sv_log s) (sv_ub s).
Definition set_sv_now v (s : server) : server :=
  mk_sv (sv_streams s) (sv_last s) (sv_rstc s) (sv_ctl s) (sv_contn s) (sv_frag s) (sv_cursid s) (sv_csend s) (sv_crecv s) (sv_ipeer s) (sv_pmcs s) (sv_pmhls s) (sv_ppush s) (sv_setsent s) (sv_active s) (sv_grace s) (sv_gal s) (sv_dec s) (sv_enc s) (sv_pmax s) (sv_ok s) v (sv_log s) (sv_ub s).
Definition set_sv_log v (s : server) : server :=
  mk_sv (sv_streams s) (sv_last s) (sv_rstc s) (sv_ctl s) (sv_contn s) (sv_frag s) (sv_cursid s) (sv_csend s) (sv_crecv s) (sv_ipeer s) (sv_pmcs s) (sv_pmhls s) (sv_ppush s) (sv_setsent s) (sv_active s) (sv_grace s) (sv_gal s) (sv_dec s) (sv_enc s) (sv_pmax s) (sv_ok s) (sv_now s) v (sv_ub s).
Definition set_sv_ub v (s : server) : server :=
  mk_sv (sv_streams s) (sv_last s) (sv_rstc s) (sv_ctl s) (sv_contn s) (sv_frag s) (sv_cursid s) (sv_csend s) (sv_crecv s) (sv_ipeer s) (sv_pmcs s) (sv_pmhls s) (sv_ppush s) (sv_setsent s) (sv_active s) (sv_grace s) (sv_gal s) (sv_dec s) (sv_enc s) (sv_pmax s) (sv_ok s) (sv_now s) (sv_log s) v.

(** base.h:85-114, 1.1/protocol/base.h:60, server.h:474 *)
Definition MAX_HEADER_BLOCK_SIZE : N := 1048576.
Definition MAX_BODY_SIZE : N := 104857600.
Definition MAX_RAPID_RESETS : N := 100.
Definition MAX_QUEUED_CONTROL_REPLIES : N := 1000.
Definition MAX_CONTINUATION_FRAMES : N := 512.
Definition OUR_MAX_CONCURRENT : N := 50.

(** server.h:153-224 constructor and reset; dt/hpack limits 210-222 *)
Definition server_init : server :=
  mk_sv [] 0 0 0 0 [] 0 65535%Z 65535%Z 65535 4294967295 4294967295 true false true false 0
        (dec_set_max_list dec_init 1048576) enc_init 16384 true 0 [] false.

(** stream.h:159-165, 356-359 a new stream context *)
Definition new_stream (peer local : Z) (t : N) : stream :=
  mk_st IDLE local peer 0 false false false false false false None req_empty false 0%nat resp_empty [] false false 0 t 0.

Definition len (s : list N) : N := N.of_nat (length s).
Definition is_state (a b : sstate) : bool :=
  match a, b with
  | IDLE, IDLE | OPEN, OPEN | RESERVED_LOCAL, RESERVED_LOCAL | RESERVED_REMOTE, RESERVED_REMOTE
  | HALF_CLOSED_LOCAL, HALF_CLOSED_LOCAL | HALF_CLOSED_REMOTE, HALF_CLOSED_REMOTE | CLOSED, CLOSED => true
  | _, _ => false
  end.
Definition odd_id (sid : N) : bool := N.odd sid.

(** ** The stream map *)
Fixpoint find_st (l : list (N * stream)) (sid : N) : option stream :=
  match l with [] => None | (k, x) :: r => if k =? sid then Some x else find_st r sid end.
Fixpoint put_st (l : list (N * stream)) (sid : N) (x : stream) : list (N * stream) :=
  match l with [] => [] | (k, y) :: r => if k =? sid then (k, x) :: r else (k, y) :: put_st r sid x end.
Definition del_st (l : list (N * stream)) (sid : N) : list (N * stream) := filter (fun p => negb (fst p =? sid)) l.
Definition get (s : server) (sid : N) : option stream := find_st (sv_streams s) sid.

(** Access through a reference to the context of [sid]. *)
Definition upd (sid : N) (g : stream -> stream) (s : server) : server :=
  match get s sid with
  | None => set_sv_ub true s
  | Some x => set_sv_streams (put_st (sv_streams s) sid (g x)) s
  end.
Definition erase (sid : N) (s : server) : server := set_sv_streams (del_st (sv_streams s) sid) s.

Definition note (i : item) (s : server) : server := set_sv_log (i :: sv_log s) s.
(** this->_io << frame *)
Definition emit (f : frame) (s : server) : server := note (LOut f) s.
Definition alive (s : server) : bool := sv_ok s && sv_active s.

(** ** Small senders *)

(** server.h:2402-2421 are_all_relevant_streams_closed *)
Definition all_relevant_closed (last : N) (s : server) : bool :=
  if sv_grace s then
    forallb (fun p => negb (odd_id (fst p) && (fst p <=? last)
                            && negb (is_state (st_state (snd p)) CLOSED) && negb (is_state (st_state (snd p)) IDLE)
                            && negb (st_rsts (snd p)) && negb (st_rstr (snd p)))) (sv_streams s)
  else false.

(** server.h:1951-1990 try_close_stream_context *)
Definition try_close (sid : N) (s : server) : server :=
  match get s sid with
  | None => s
  | Some x =>
    if is_state (st_state x) CLOSED || st_rsts x || st_rstr x then
      let s := erase sid s in
      if sv_grace s && negb (sv_gal s =? 0) then
        if all_relevant_closed (sv_gal s) s then set_sv_ok false (set_sv_active false s) else s
      else if sv_grace s && (match sv_streams s with [] => true | _ => false end) && (sv_gal s =? 0) then set_sv_active false s
      else s
    else s
  end.

(** server.h:1419-1462 send_rst_stream *)
Definition rst_stream (sid code : N) (close_context : bool) (s : server) : server :=
  if negb (sv_active s) && negb (code =? CANCEL) then s
  else
    let s := emit (mk_frame (mk_h T_RST_STREAM 0 sid) (PRst code)) s in
    match get s sid with
    | None => s
    | Some x =>
      let s := upd sid (fun x => set_st_err code (set_st_rsts true (set_st_state CLOSED x))) s in
      let s := if (negb (st_disp x) || negb (st_ends x)) && negb (code =? NO_ERROR) then note (LErr sid code) s else s in
      if close_context then try_close sid s else s
    end.

(** server.h:2001-2037 send_goaway_and_close (the debug text is dropped) *)
Definition goaway (code : N) (s : server) : server :=
  if negb (sv_active s) then s
  else
    let s := emit (mk_frame (mk_h T_GOAWAY 0 0) (PGoaway (sv_last s) code [])) s in
    let s := set_sv_active false (set_sv_grace true s) in
    set_sv_ok false (note (LBye code (sv_last s)) s).

(** server.h:2045-2058 send_window_update *)
Definition send_wu (sid inc : N) (s : server) : server :=
  if negb (sv_ok s) || (inc =? 0) then s
  else emit (mk_frame (mk_h T_WINDOW_UPDATE 0 sid) (PWindow inc)) s.

(** server.h:2066-2079 conditionally_send_connection_window_update *)
Definition cond_wu (s : server) : server :=
  if (sv_crecv s <? 65535 / 2)%Z then
    let inc := Z.to_N ((65535 - sv_crecv s) mod 2 ^ 32) in
    if 0 <? inc then
      let s := send_wu 0 inc s in set_sv_crecv (sv_crecv s + Z.of_N inc)%Z s
    else s
  else s.

Definition debit (n : Z) (s : server) : server := set_sv_crecv (sv_crecv s - n)%Z s.

(** ** Sending a response *)

(** std::to_string on an unsigned value (fuel: the number of digits) *)
Fixpoint dec_digits (fuel : nat) (n : N) : list N :=
  match fuel with
  | O => []
  | S k => (if n / 10 =? 0 then [] else dec_digits k (n / 10)) ++ [48 + n mod 10]
  end.
Definition dec_str (n : N) : list N := dec_digits (S (N.size_nat n)) n.

Definition lower (s : list N) : list N := map ascii_to_lower s.

(** base.h:253-266 *)
Definition is_forbidden_response_header (name : list N) : bool := is_forbidden_header name || beq name (str "te").
Definition is_forbidden_trailer_header (name : list N) : bool :=
  is_forbidden_response_header name || beq name (str "trailer") || beq name (str "content-length").

(** server.h:1105-1124: the values of one header; inl is the error code passed to on_stream_error *)
Fixpoint resp_values (name : list N) (vals : list (list N)) (clen : option N) : N + (list HpackModel.field * option N) :=
  match vals with
  | [] => inr ([], clen)
  | v :: r =>
    if negb (is_valid_header_field name v) then inl PROTOCOL_ERROR
    else
      match (if beq name (str "content-length") then
               match parse_content_length v with
               | None => inl PROTOCOL_ERROR
               | Some p => match clen with
                           | Some c => if negb (c =? p) then inl PROTOCOL_ERROR else inr (Some p)
                           | None => inr (Some p)
                           end
               end
             else inr clen) with
      | inl c => inl c
      | inr clen => match resp_values name r clen with
                    | inl c => inl c
                    | inr (fs, clen) => inr (mk_field name v false :: fs, clen)
                    end
      end
  end.
(** server.h:1096-1131 *)
Fixpoint resp_fields (hs : list (list N * list (list N))) (clen : option N) : N + (list HpackModel.field * option N) :=
  match hs with
  | [] => inr ([], clen)
  | (n, vals) :: r =>
    let name := lower n in
    if (match name with [] => true | c :: _ => c =? 58 end) || is_forbidden_response_header name then inl PROTOCOL_ERROR
    else match resp_values name vals clen with
         | inl c => inl c
         | inr (fs, clen) => match resp_fields r clen with
                             | inl c => inl c
                             | inr (fs', clen) => inr (fs ++ fs', clen)
                             end
         end
  end.

(** base.h:715-758 send_headers_with_continuation, including the stop after the first frame when the
    protocol is no longer ok. *)
Definition send_header_block (sid flags : N) (block : list N) (s : server) : server * bool :=
  match send_headers sid flags (sv_pmax s) block with
  | [] => (s, true)
  | f :: fs => if sv_ok s then (fold_left (fun s f => emit f s) (f :: fs) s, true) else (emit f s, false)
  end.

Definition u32 (z : Z) : N := Z.to_N (z mod 2 ^ 32).

(** One DATA frame carrying body[off, off+n): server.h:1789-1810, 2225-2242 *)
Definition data_frame (sid : N) (body : list N) (off n : nat) (fin : bool) : frame :=
  mk_frame (mk_h T_DATA (if fin then FLAG_END_STREAM else 0) sid) (PData (firstn n (skipn off body)) 0).

(** server.h:1760-1831: the loop of send_response_body.  inl: the function returned that value. *)
Fixpoint body_loop (fuel : nat) (sid : N) (body : list N) (s : server) : (server * bool) + server :=
  match fuel with
  | O => inl (set_sv_ub true s, false)
  | S k =>
    match get s sid with
    | None => inl (set_sv_ub true s, false)
    | Some x =>
      if (st_off x <? length body)%nat then
        if (st_peer x <=? 0)%Z || (sv_csend s <=? 0)%Z then inl (upd sid (set_st_pend true) s, true)
        else
          let rem := N.of_nat (length body - st_off x) in
          let chunk := N.min (N.min rem (N.min (sv_pmax s) (u32 (st_peer x))))
                             (N.min (N.min (sv_pmax s) (u32 (sv_csend s))) (sv_pmax s)) in
          if (chunk =? 0) && (0 <? rem) then inl (upd sid (set_st_pend true) s, true)
          else
            let n := N.to_nat chunk in
            let off' := (st_off x + n)%nat in
            let fin := (off' =? length body)%nat && negb (st_trail x) in
            let s := upd sid (fun x => set_st_peer (st_peer x - Z.of_N chunk)%Z (set_st_off off' x)) s in
            let s := set_sv_csend (sv_csend s - Z.of_N chunk)%Z s in
            let s := emit (data_frame sid body (st_off x) n fin) s in
            if negb (sv_ok s) then
              let s := upd sid (fun x => set_st_pend true (set_st_peer (st_peer x + Z.of_N chunk)%Z (set_st_off (st_off x - n) x))) s in
              inl (set_sv_csend (sv_csend s + Z.of_N chunk)%Z s, false)
            else
              let s := if fin then upd sid (fun x => set_st_state HALF_CLOSED_LOCAL (set_st_ends true x)) s else s in
              match get s sid with
              | None => inl (set_sv_ub true s, false)
              | Some x => if st_ends x && negb (st_trail x) then inr s else body_loop k sid body s
              end
      else inr s
    end
  end.

(** server.h:2178-2261: the loop of try_send_pending_data_for_stream.  inl: the function returned. *)
Fixpoint pending_loop (fuel : nat) (sid : N) (body : list N) (s : server) : server + server :=
  match fuel with
  | O => inl (set_sv_ub true s)
  | S k =>
    match get s sid with
    | None => inl (set_sv_ub true s)
    | Some x =>
      if (st_off x <? length body)%nat then
        if (st_peer x <=? 0)%Z || (sv_csend s <=? 0)%Z then inl (upd sid (set_st_pend true) s)
        else
          let maxc := N.min (N.min (u32 (st_peer x)) (u32 (sv_csend s))) (sv_pmax s) in
          if maxc =? 0 then inl (upd sid (set_st_pend true) s)
          else
            let rem := N.of_nat (length body - st_off x) mod 2 ^ 32 in
            let chunk := N.min rem maxc in
            if (chunk =? 0) && (0 <? rem) then inl (upd sid (set_st_pend true) s)
            else if chunk =? 0 then inr s
            else
              let n := N.to_nat chunk in
              let off' := (st_off x + n)%nat in
              let fin := (off' =? length body)%nat && negb (st_trail x) && negb (st_ends x) in
              let s := upd sid (set_st_off off') s in
              let s := emit (data_frame sid body (st_off x) n fin) s in
              if negb (sv_ok s) then inl (upd sid (fun x => set_st_pend true (set_st_off (st_off x - n) x)) s)
              else
                let s := upd sid (fun x => set_st_peer (st_peer x - Z.of_N chunk)%Z x) s in
                let s := set_sv_csend (sv_csend s - Z.of_N chunk)%Z s in
                if fin then inr (upd sid (fun x => set_st_pend false (set_st_ends true (set_st_state HALF_CLOSED_LOCAL x))) s)
                else pending_loop k sid body s
      else inr s
    end
  end.

(** server.h:2275-2292: the trailer fields *)
Definition trailer_fields (x : stream) : list HpackModel.field :=
  flat_map (fun h : list N * list (list N) =>
              let '(n, vals) := h in
              if existsb (beq n) (st_sent x) then []
              else if (match n with [] => true | c :: _ => c =? 58 end) || is_forbidden_trailer_header (lower n) then []
              else flat_map (fun v => if is_valid_header_field n v then [mk_field n v false] else []) vals)
           (rs_headers (st_resp x)).

(** server.h:2328-2337 *)
Definition finish_send (sid : N) (s : server) : server :=
  match get s sid with
  | None => set_sv_ub true s
  | Some x =>
    if st_ends x then
      let s := if is_state (st_state x) HALF_CLOSED_LOCAL && st_endr x then upd sid (set_st_state CLOSED) s else s in
      try_close sid s
    else s
  end.

(** server.h:2268-2337 trailers, then the closing check *)
Definition send_trailers (sid : N) (s : server) : server :=
  match get s sid with
  | None => set_sv_ub true s
  | Some x =>
    if (st_off x =? length (rs_body (st_resp x)))%nat && st_trail x && negb (st_ends x) then
      match (match trailer_fields x with
             | [] => Some (s, [], true)
             | fs => match encode (sv_enc s) fs with
                     | None => None
                     | Some (e, out, okb) => Some (set_sv_enc e s, out, okb)
                     end
             end) with
      | None => set_sv_ub true s
      | Some (s, block, false) => rst_stream sid INTERNAL_ERROR true s
      | Some (s, block, true) =>
        let s := emit (mk_frame (mk_h T_HEADERS (N.lor FLAG_END_HEADERS FLAG_END_STREAM) sid) (PHeaders block None)) s in
        if sv_ok s
        then finish_send sid (upd sid (fun x => set_st_trail false (set_st_ends true (set_st_state HALF_CLOSED_LOCAL x))) s)
        else s
      end
    else finish_send sid s
  end.

(** server.h:2156-2338 try_send_pending_data_for_stream *)
Definition try_send_pending (sid : N) (s : server) : server :=
  match get s sid with
  | None => set_sv_ub true s
  | Some x =>
    if negb (alive s) then s
    else if negb (is_state (st_state x) OPEN) && negb (is_state (st_state x) HALF_CLOSED_REMOTE) then s
    else
      let body := rs_body (st_resp x) in
      if st_pend x && negb (st_off x =? length body)%nat then
        match pending_loop (S (length body)) sid body s with
        | inl s => s
        | inr s =>
          match get s sid with
          | None => set_sv_ub true s
          | Some x => send_trailers sid (if (st_off x =? length body)%nat then upd sid (set_st_pend false) s else s)
          end
        end
      else send_trailers sid s
  end.

Definition has_trailer_header (r : response) : bool := existsb (fun h => iequals (fst h) (str "Trailer")) (rs_headers r).

(** server.h:1743-1864 send_response_body *)
Definition send_response_body (sid : N) (r : response) (s : server) : server * bool :=
  let s := upd sid (set_st_trail (has_trailer_header r)) s in
  match body_loop (S (length (rs_body r))) sid (rs_body r) s with
  | inl res => res
  | inr s =>
    match get s sid with
    | None => (set_sv_ub true s, false)
    | Some x =>
      let full := (st_off x =? length (rs_body r))%nat in
      let s := upd sid (set_st_pend (negb full)) s in
      if full && st_trail x && negb (st_ends x) then
        let s := try_send_pending sid s in
        match get s sid with
        | None => (s, true)
        | Some x => (if st_ends x && st_endr x then upd sid (set_st_state CLOSED) s else s, true)
        end
      else (if st_ends x && st_endr x then upd sid (set_st_state CLOSED) s else s, true)
    end
  end.

Definition in_1xx_204_304 (c : N) : bool := ((100 <=? c) && (c <? 200)) || (c =? 204) || (c =? 304).

(** server.h:1069-1209 send_response *)
Definition send_response (sid : N) (r : response) (s : server) : server * bool :=
  match get s sid with
  | None => (s, false)
  | Some x =>
    let s := upd sid (fun x => set_st_off 0%nat (set_st_resp r x)) s in
    if is_state (st_state x) IDLE || is_state (st_state x) RESERVED_LOCAL then (rst_stream sid PROTOCOL_ERROR true s, false)
    else if is_state (st_state x) CLOSED || is_state (st_state x) HALF_CLOSED_LOCAL then (s, false)
    else
      match resp_fields (rs_headers r) None with
      | inl code => (rst_stream sid code true s, false)
      | inr (fs, clen) =>
        let s := upd sid (fun x => set_st_sent (map fst (rs_headers r) ++ st_sent x) x) s in
        let must_match := negb (iequals (rq_method (st_req x)) (str "HEAD")) && negb (in_1xx_204_304 (rs_status r)) in
        if (match clen with Some c => must_match && negb (len (rs_body r) =? c) | None => false end)
        then (rst_stream sid PROTOCOL_ERROR true s, false)
        else if MAX_BODY_SIZE <? len (rs_body r) then (rst_stream sid ENHANCE_YOUR_CALM true s, false)
        else
          match encode (sv_enc s) (mk_field (str ":status") (dec_str (rs_status r)) false :: fs) with
          | None => (set_sv_ub true s, false)
          | Some (e, _, false) => (goaway COMPRESSION_ERROR (set_sv_enc e s), false)
          | Some (e, block, true) =>
            let s := set_sv_enc e s in
            if (0 <? sv_pmhls s) && (sv_pmhls s <? len block) then (rst_stream sid INTERNAL_ERROR true s, false)
            else
              let has_body := match rs_body r with [] => false | _ => true end in
              let '(s, sent) := send_header_block sid (if has_body then 0 else FLAG_END_STREAM) block s in
              if negb sent then (s, false)
              else if has_body then
                let '(s, okb) := send_response_body sid r s in
                if negb okb then (s, false)
                else match get s sid with
                     | None => (s, sv_ok s)
                     | Some x => let s := if is_state (st_state x) CLOSED then try_close sid s else s in (s, sv_ok s)
                     end
              else
                let s := upd sid (fun x => set_st_state (match st_state x with
                                                         | OPEN => HALF_CLOSED_LOCAL
                                                         | HALF_CLOSED_REMOTE => CLOSED
                                                         | st => st
                                                         end) (set_st_ends true x)) s in
                match get s sid with
                | None => (set_sv_ub true s, false)
                | Some x => let s := if is_state (st_state x) CLOSED then try_close sid s else s in (s, sv_ok s)
                end
          end
      end
  end.

(** server.h:2470-2488 get_active_stream_count(true) *)
Definition active_pushed (s : server) : N :=
  N.of_nat (length (filter (fun p => negb (is_state (st_state (snd p)) IDLE) && negb (is_state (st_state (snd p)) CLOSED)
                                     && negb (st_rsts (snd p)) && negb (st_rstr (snd p)) && negb (odd_id (fst p)))
                           (sv_streams s))).

(** server.h:1278-1293 *)
Definition promised_authority (p : promised) : list N :=
  let h := pr_host p in
  let bracketed := (2 <=? length h)%nat && (match h with c :: _ => c =? 91 | [] => false end)
                   && (match rev h with c :: _ => c =? 93 | [] => false end) in
  let h := if negb bracketed && existsb (N.eqb 58) h then [91] ++ h ++ [93] else h in
  match pr_port p with [] => h | port => h ++ [58] ++ port end.
Definition promised_path (p : promised) : list N :=
  (match pr_path p with [] => [47] | x => x end) ++ (match pr_query p with [] => [] | q => 63 :: q end).

(** server.h:1306-1318 *)
Definition promised_fields (p : promised) : list HpackModel.field :=
  flat_map (fun h : list N * list (list N) =>
              let '(n, vals) := h in
              if (match n with c :: _ => c =? 58 | [] => false end)
                 && (beq n (str ":method") || beq n (str ":path") || beq n (str ":scheme") || beq n (str ":authority") || beq n (str "content-length"))
              then [] else map (fun v => mk_field n v false) vals)
           (pr_headers p).

(** server.h:1222-1344 send_push_promise; None is std::nullopt (success), Some k the failure reason:
    0 CONNECTION_INACTIVE, 1 PEER_PUSH_DISABLED, 2 INVALID_PROMISED_STREAM, 3 PEER_CONCURRENCY_LIMIT_REACHED,
    4 INVALID_ASSOCIATED_STREAM, 5 INTERNAL_ERROR, 6 INVALID_PROMISED_REQUEST, 7 INTERNAL_HPACK_ERROR. *)
Definition send_push (assoc prom : N) (p : promised) (s : server) : server * option N :=
  if negb (alive s) then (s, Some 0)
  else if negb (sv_ppush s) then (s, Some 1)
  else if (prom =? 0) || odd_id prom then (s, Some 2)
  else if sv_pmcs s <=? active_pushed s then (s, Some 3)
  else match get s assoc with
  | None => (s, Some 4)
  | Some a =>
    if negb (is_state (st_state a) OPEN) && negb (is_state (st_state a) HALF_CLOSED_REMOTE) then (s, Some 4)
    else match get s prom with
    | Some _ => (s, Some 5)
    | None =>
      let x := set_st_parent assoc (set_st_state RESERVED_LOCAL (new_stream (Z.of_N (sv_ipeer s)) 65535 (sv_now s))) in
      let s := set_sv_streams ((prom, x) :: sv_streams s) s in
      match pr_method p with
      | None => (erase prom s, Some 6)
      | Some m =>
        if is_nil (pr_scheme p) || is_nil (promised_authority p) then (erase prom s, Some 6)
        else
          match encode (sv_enc s) (mk_field (str ":method") m false :: mk_field (str ":scheme") (pr_scheme p) false
                                   :: mk_field (str ":authority") (promised_authority p) false
                                   :: mk_field (str ":path") (promised_path p) false :: promised_fields p) with
          | None => (set_sv_ub true s, Some 5)
          | Some (e, _, false) => (erase prom (set_sv_enc e s), Some 7)
          | Some (e, block, true) =>
            let s := emit (mk_frame (mk_h T_PUSH_PROMISE FLAG_END_HEADERS assoc) (PPush prom block)) (set_sv_enc e s) in
            if negb (sv_ok s) then (erase prom s, Some 0) else (s, None)
          end
      end
    end
  end.

(** server.h:1356-1406 cleanup_idle_streams with its default limits, in milliseconds *)
Fixpoint cleanup (order : list N) (s : server) : server :=
  match order with
  | [] => s
  | sid :: r =>
    cleanup r
      (match get s sid with
       | None => s
       | Some x =>
         if is_state (st_state x) CLOSED then s
         else
           let idle := sv_now s - st_act x in
           let incomplete := negb (st_disp x) && (is_state (st_state x) IDLE || is_state (st_state x) OPEN) in
           if (incomplete && (10000 <? idle)) || (30000 <? idle) then erase sid (rst_stream sid CANCEL true s) else s
       end)
  end.

Definition run_cmd (c : appcmd) (s : server) : server :=
  let s := note (LCmd c) s in
  match c with
  | CRespond sid r => fst (send_response sid r s)
  | CPush a b p => fst (send_push a b p s)
  | CReset sid code => rst_stream sid code true s
  | CCleanup order => cleanup order s
  end.
Definition run_cmds (cs : list appcmd) (s : server) : server := fold_left (fun s c => run_cmd c s) cs s.

(** What the code asks of two components outside the model: whether the text names an HTTP method
    (types.cpp Method::Method) and whether qb::io::uri::parse finds a non-empty path in a URI text. *)
Record env := mk_env { e_method_known : list N -> bool; e_uri_has_path : list N -> bool }.

Section SERVER.
Variable E : env.

(** server.h:1875-1941 dispatch_complete_request.  [assembled_request] is moved out; the model leaves it in
    place since nothing reads it afterwards except the method, which a move does not change. *)
Definition dispatch (sid : N) (a : appact) (s : server) : server :=
  match get s sid with
  | None => set_sv_ub true s
  | Some x =>
    if st_disp x || st_rsts x || st_rstr x then s
    else if alive s then
      if negb (e_method_known E (rq_method (st_req x))) || negb (e_uri_has_path E (rq_uri (st_req x))) then
        rst_stream sid INTERNAL_ERROR true s
      else
        let s := upd sid (set_st_disp true) s in
        let s := note (LReq sid (st_req x)) s in
        let s := run_cmds (fst a) s in
        if snd a then rst_stream sid INTERNAL_ERROR false s
        else match get s sid with
             | None => s
             | Some x => if is_state (st_state x) CLOSED then try_close sid s else s
             end
    else s
  end.

(** The fields of a request header block: server.h:1573-1656.  inl: the error code passed to on_stream_error. *)
Record pseudo := mk_pseudo { ps_method : option (list N); ps_scheme : option (list N); ps_path : option (list N);
                             ps_auth : option (list N); ps_fin : bool; ps_clen : option N; ps_hdrs : list (list N * list N) }.
Fixpoint request_fields (p : pseudo) (fs : list HpackModel.field) : N + pseudo :=
  match fs with
  | [] => inr p
  | f :: r =>
    let name := f_name f in let value := f_value f in
    match name with
    | [] => inl PROTOCOL_ERROR
    | c :: _ =>
      if c =? 58 then
        if ps_fin p then inl PROTOCOL_ERROR
        else if negb (is_valid_header_value value) then inl PROTOCOL_ERROR
        else if beq name (str ":method") then
          match ps_method p with Some _ => inl PROTOCOL_ERROR
          | None => request_fields (mk_pseudo (Some value) (ps_scheme p) (ps_path p) (ps_auth p) (ps_fin p) (ps_clen p) (ps_hdrs p)) r end
        else if beq name (str ":scheme") then
          match ps_scheme p with Some _ => inl PROTOCOL_ERROR
          | None => request_fields (mk_pseudo (ps_method p) (Some value) (ps_path p) (ps_auth p) (ps_fin p) (ps_clen p) (ps_hdrs p)) r end
        else if beq name (str ":path") then
          match ps_path p with Some _ => inl PROTOCOL_ERROR
          | None => request_fields (mk_pseudo (ps_method p) (ps_scheme p) (Some value) (ps_auth p) (ps_fin p) (ps_clen p) (ps_hdrs p)) r end
        else if beq name (str ":authority") then
          match ps_auth p with Some _ => inl PROTOCOL_ERROR
          | None => request_fields (mk_pseudo (ps_method p) (ps_scheme p) (ps_path p) (Some value) (ps_fin p) (ps_clen p) (ps_hdrs p)) r end
        else inl PROTOCOL_ERROR
      else if negb (is_valid_header_field name value) then inl PROTOCOL_ERROR
      else if is_forbidden_header name || (beq name (str "te") && negb (is_valid_request_te_value value)) then inl PROTOCOL_ERROR
      else
        match (if beq name (str "content-length") then
                 match parse_content_length value with
                 | None => inl PROTOCOL_ERROR
                 | Some n =>
                   if (match ps_clen p with Some c => negb (c =? n) | None => false end) then inl PROTOCOL_ERROR
                   else if MAX_BODY_SIZE <? n then inl ENHANCE_YOUR_CALM
                   else inr (Some n)
                 end
               else inr (ps_clen p)) with
        | inl code => inl code
        | inr clen => request_fields (mk_pseudo (ps_method p) (ps_scheme p) (ps_path p) (ps_auth p) true clen (ps_hdrs p ++ [(name, value)])) r
        end
    end
  end.

(** server.h:1693-1710: the fields of a trailer block *)
Fixpoint trailer_block (hdrs : list (list N * list N)) (fs : list HpackModel.field) : N + list (list N * list N) :=
  match fs with
  | [] => inr hdrs
  | f :: r =>
    let name := f_name f in let value := f_value f in
    if (match name with [] => true | c :: _ => c =? 58 end) then inl PROTOCOL_ERROR
    else if negb (is_valid_header_field name value) then inl PROTOCOL_ERROR
    else if is_forbidden_trailer_header name then inl PROTOCOL_ERROR
    else trailer_block (hdrs ++ [(name, value)]) r
  end.

Definition opt_mismatch (clen : option N) (body : list N) : bool :=
  match clen with Some c => negb (len body =? c) | None => false end.

(** server.h:1538-1731 process_complete_header_block *)
Definition process_block (sid : N) (trailers : bool) (a : appact) (s : server) : server * bool :=
  match get s sid with
  | None => (set_sv_ub true s, false)
  | Some x =>
    let '(d, res) := decode (sv_dec s) (sv_frag s) in
    let s := set_sv_dec d s in
    match res with
    | OUndef => (set_sv_ub true s, false)
    | OFail _ => (rst_stream sid COMPRESSION_ERROR true s, false)
    | OOk fs =>
      let s := set_sv_frag [] s in
      let s := upd sid (set_st_cont false) s in
      if negb trailers then
        let s := upd sid (set_st_main true) s in
        match request_fields (mk_pseudo None None None None false (st_clen x) (rq_headers (st_req x))) fs with
        | inl code => (rst_stream sid code true s, false)
        | inr p =>
          match ps_method p, ps_scheme p, ps_path p, ps_auth p with
          | Some m, Some sc, Some pa, Some au =>
            if is_nil pa || is_nil au then (rst_stream sid PROTOCOL_ERROR true s, false)
            else if negb (e_method_known E m) then (rst_stream sid PROTOCOL_ERROR true s, false)
            else
              let s := upd sid (fun x => set_st_clen (ps_clen p)
                                 (set_st_req (mk_req m (sc ++ str "://" ++ au ++ pa) (ps_hdrs p) (rq_body (st_req x))) x)) s in
              if st_endr x then
                if opt_mismatch (ps_clen p) (rq_body (st_req x)) then (rst_stream sid PROTOCOL_ERROR true s, false)
                else (dispatch sid a s, true)
              else (s, true)
          | _, _, _, _ => (rst_stream sid PROTOCOL_ERROR true s, false)
          end
        end
      else
        match trailer_block (rq_headers (st_req x)) fs with
        | inl code => (rst_stream sid code true s, false)
        | inr hdrs =>
          let s := upd sid (fun x => set_st_req (mk_req (rq_method (st_req x)) (rq_uri (st_req x)) hdrs (rq_body (st_req x))) x) s in
          if negb (st_endr x) then (rst_stream sid PROTOCOL_ERROR true s, false)
          else if opt_mismatch (st_clen x) (rq_body (st_req x)) then (rst_stream sid PROTOCOL_ERROR true s, false)
          else if negb (st_disp x) then (dispatch sid a s, true)
          else (s, true)
        end
    end
  end.

(** server.h:1522-1526 *)
Definition clear_assembly (s : server) : server := set_sv_cursid 0 (set_sv_frag [] s).

(** server.h:259-394 on(DataFrame) *)
Definition on_data (h : fhdr) (data : list N) (padding : N) (a : appact) (s : server) : server :=
  if negb (alive s) then s else
  let sid := get_stream_id h in
  let size := len data + padding in
  let z := Z.of_N size in
  if sid =? 0 then goaway PROTOCOL_ERROR s
  else if (sv_crecv s <? z)%Z && (0 <? size) then goaway FLOW_CONTROL_ERROR s
  else match get s sid with
  | None =>
    if sv_last s <? sid then goaway PROTOCOL_ERROR s
    else cond_wu (rst_stream sid STREAM_CLOSED true (debit z s))
  | Some x =>
    if is_state (st_state x) IDLE || is_state (st_state x) CLOSED || st_rsts x || st_rstr x then
      let s := cond_wu (debit z s) in
      if is_state (st_state x) IDLE then rst_stream sid STREAM_CLOSED true s else s
    else if st_endr x then cond_wu (debit z (rst_stream sid STREAM_CLOSED true s))
    else if (st_local x <? z)%Z && (0 <? size) then cond_wu (debit z (rst_stream sid FLOW_CONTROL_ERROR true s))
    else
      let s := debit z s in
      let s := upd sid (fun x => set_st_local (st_local x - z)%Z x) s in
      let s := set_sv_ctl 0 s in
      let body := rq_body (st_req x) ++ data in
      let s := upd sid (fun x => set_st_req (mk_req (rq_method (st_req x)) (rq_uri (st_req x)) (rq_headers (st_req x)) body) x) s in
      if MAX_BODY_SIZE <? len body then rst_stream sid ENHANCE_YOUR_CALM true s
      else if (match st_clen x with Some c => c <? len body | None => false end) then rst_stream sid PROTOCOL_ERROR true s
      else
        let fin := has_flag (h_flags h) FLAG_END_STREAM in
        let s := if fin then upd sid (set_st_endr true) s else s in
        let thr := calculate_window_threshold 65535 in
        let proc := st_proc x + size in
        let s := if should_send_window_update proc thr
                 then upd sid (fun x => set_st_proc 0 (set_st_local (st_local x + Z.of_N proc)%Z x)) (send_wu sid proc s)
                 else upd sid (set_st_proc proc) s in
        let s := cond_wu s in
        if fin then
          if st_main x && opt_mismatch (st_clen x) body then rst_stream sid PROTOCOL_ERROR true s
          else
            let s := if st_main x then dispatch sid a s else s in
            match get s sid with
            | None => s
            | Some x => if st_ends x then try_close sid (upd sid (set_st_state CLOSED) s)
                        else upd sid (set_st_state HALF_CLOSED_REMOTE) s
            end
        else s
  end.

(** server.h:435-444 *)
Definition active_client_streams (s : server) : N :=
  N.of_nat (length (filter (fun p => odd_id (fst p) && (is_state (st_state (snd p)) OPEN || is_state (st_state (snd p)) HALF_CLOSED_LOCAL
                                                        || is_state (st_state (snd p)) HALF_CLOSED_REMOTE)) (sv_streams s))).

(** server.h:461-533: the part after the context has been found or created *)
Definition on_headers_stream (h : fhdr) (sid : N) (frag : list N) (a : appact) (s : server) : server :=
  match get s sid with
  | None => set_sv_ub true s
  | Some x =>
    let end_stream := has_flag (h_flags h) FLAG_END_STREAM in
    let end_headers := has_flag (h_flags h) FLAG_END_HEADERS in
    if st_cont x then clear_assembly (goaway PROTOCOL_ERROR s)
    else if is_state (st_state x) CLOSED || st_rstr x || st_rsts x then s
    else if is_state (st_state x) HALF_CLOSED_REMOTE then rst_stream sid PROTOCOL_ERROR true s
    else
      let s := set_sv_contn 0 (set_sv_ctl 0 s) in
      let trailers := st_main x in
      if negb (sv_cursid s =? 0) && negb (sv_cursid s =? sid) then goaway PROTOCOL_ERROR s
      else
        let s := set_sv_cursid sid s in
        let s := set_sv_frag (sv_frag s ++ frag) s in
        if MAX_HEADER_BLOCK_SIZE <? len (sv_frag s) then goaway ENHANCE_YOUR_CALM s
        else
          let s := if is_state (st_state x) IDLE then upd sid (set_st_state OPEN) s else s in
          let s := if end_stream then
                     upd sid (fun x => set_st_state (if end_headers then
                                                       match st_state x with
                                                       | OPEN => HALF_CLOSED_REMOTE
                                                       | HALF_CLOSED_LOCAL => CLOSED
                                                       | st => st
                                                       end
                                                     else st_state x) (set_st_endr true x)) s
                   else s in
          if end_headers then
            let s := upd sid (set_st_cont false) s in
            let '(s, okb) := process_block sid trailers a s in
            let s := if okb then
                       match get s sid with
                       | Some x => if is_state (st_state x) CLOSED then try_close sid s else s
                       | None => s
                       end
                     else s in
            clear_assembly s
          else upd sid (set_st_cont true) s
  end.

(** server.h:400-534 on(HeadersFrame) *)
Definition on_headers (h : fhdr) (frag : list N) (a : appact) (s : server) : server :=
  if negb (alive s) then s else
  let sid := get_stream_id h in
  if sid =? 0 then goaway PROTOCOL_ERROR s
  else if negb (odd_id sid) then goaway PROTOCOL_ERROR s
  else match get s sid with
  | Some _ => on_headers_stream h sid frag a s
  | None =>
    if sid <=? sv_last s then rst_stream sid STREAM_CLOSED true s
    else if sv_grace s then rst_stream sid REFUSED_STREAM true s
    else if OUR_MAX_CONCURRENT <=? active_client_streams s then rst_stream sid REFUSED_STREAM true s
    else
      let s := set_sv_streams ((sid, new_stream (Z.of_N (sv_ipeer s)) 65535 (sv_now s)) :: sv_streams s) s in
      on_headers_stream h sid frag a (set_sv_last (N.max (sv_last s) sid) s)
  end.

(** server.h:540-626 on(ContinuationFrame) *)
Definition on_continuation (h : fhdr) (frag : list N) (a : appact) (s : server) : server :=
  if negb (alive s) then s else
  let sid := get_stream_id h in
  if (sid =? 0) || (sv_cursid s =? 0) || negb (sid =? sv_cursid s) then clear_assembly (goaway PROTOCOL_ERROR s)
  else match get s sid with
  | None => clear_assembly (goaway PROTOCOL_ERROR s)
  | Some x =>
    if negb (st_cont x) then clear_assembly (goaway PROTOCOL_ERROR s)
    else
      let s := set_sv_contn (sv_contn s + 1) s in
      if MAX_CONTINUATION_FRAMES <? sv_contn s then clear_assembly (goaway ENHANCE_YOUR_CALM s)
      else
        let s := set_sv_frag (sv_frag s ++ frag) s in
        if MAX_HEADER_BLOCK_SIZE <? len (sv_frag s) then clear_assembly (goaway ENHANCE_YOUR_CALM s)
        else if has_flag (h_flags h) FLAG_END_HEADERS then
          let s := upd sid (set_st_cont false) s in
          let '(s, okb) := process_block sid (st_main x) a s in
          let s := if okb then
                     match get s sid with
                     | None => s
                     | Some y =>
                       let s := if st_endr y then
                                  upd sid (set_st_state (match st_state y with
                                                         | OPEN => HALF_CLOSED_REMOTE
                                                         | HALF_CLOSED_LOCAL => CLOSED
                                                         | st => st
                                                         end)) s
                                else s in
                       match get s sid with
                       | None => set_sv_ub true s
                       | Some y => if is_state (st_state y) CLOSED then try_close sid (dispatch sid a s) else s
                       end
                     end
                   else s in
          clear_assembly s
        else upd sid (set_st_cont true) s
  end.

(** server.h:2089-2145 update_initial_peer_window_size; [order] is the snapshot of the identifiers.
    Returns the state and whether the loop ran to its end. *)
Fixpoint shift_windows (delta : Z) (order : list N) (s : server) : server :=
  match order with
  | [] => s
  | sid :: r =>
    match get s sid with
    | None => shift_windows delta r s
    | Some x =>
      if is_state (st_state x) OPEN || is_state (st_state x) HALF_CLOSED_LOCAL || is_state (st_state x) RESERVED_LOCAL then
        let s := upd sid (fun x => set_st_peer (st_peer x + delta)%Z x) s in
        if (2147483647 <? st_peer x + delta)%Z then goaway FLOW_CONTROL_ERROR (rst_stream sid FLOW_CONTROL_ERROR true s)
        else if (st_peer x <=? 0)%Z && (0 <? st_peer x + delta)%Z && st_pend x then shift_windows delta r (try_send_pending sid s)
        else shift_windows delta r s
      else shift_windows delta r s
    end
  end.
Definition update_initial_peer_window (v : N) (ord : list N -> list N) (s : server) : server :=
  let delta := (Z.of_N v - Z.of_N (sv_ipeer s))%Z in
  let s := set_sv_ipeer v s in
  shift_windows delta (ord (map fst (sv_streams s))) s.

(** server.h:657-708: the entries of a SETTINGS frame.  inl: the handler returned. *)
Fixpoint apply_settings (es : list (N * N)) (ord : list N -> list N) (s : server) : server + server :=
  match es with
  | [] => inr s
  | (id, v) :: r =>
    match validate_setting id v with
    | Some code => inl (goaway code s)
    | None =>
      let s := note (LSet id v) s in
      let s :=
        if id =? 1 then match enc_set_peer_max (sv_enc s) v with None => set_sv_ub true s | Some e => set_sv_enc e s end
        else if id =? 2 then set_sv_ppush (v =? 1) s
        else if id =? 3 then set_sv_pmcs v s
        else if id =? 4 then update_initial_peer_window v ord s
        else if id =? 5 then set_sv_pmax (clamp_peer_max_frame_size v) s
        else if id =? 6 then set_sv_pmhls v s
        else s in
      apply_settings r ord s
    end
  end.

(** server.h:632-724 on(SettingsFrame) *)
Definition on_settings (h : fhdr) (es : list (N * N)) (ord : list N -> list N) (s : server) : server :=
  if negb (alive s) then s
  else if negb (get_stream_id h =? 0) then goaway PROTOCOL_ERROR s
  else if has_flag (h_flags h) FLAG_ACK then
    match es with [] => s | _ => goaway FRAME_SIZE_ERROR s end
  else match apply_settings es ord s with
  | inl s => s
  | inr s =>
    let s := set_sv_ctl (sv_ctl s + 1) s in
    if MAX_QUEUED_CONTROL_REPLIES <? sv_ctl s then goaway ENHANCE_YOUR_CALM s
    else emit (mk_frame (mk_h T_SETTINGS FLAG_ACK 0) (PSettings [])) s
  end.

(** server.h:730-779 on(RstStreamFrame) *)
Definition on_rst (h : fhdr) (code : N) (s : server) : server :=
  if negb (alive s) then s else
  let sid := get_stream_id h in
  if sid =? 0 then goaway PROTOCOL_ERROR s
  else
    let '(s, stop) :=
      if sid <=? sv_last s then
        let s := set_sv_rstc (sv_rstc s + 1) s in
        if (MAX_RAPID_RESETS <? sv_rstc s) && ((sv_last s + 1) / 2 <? sv_rstc s * 2) then (goaway ENHANCE_YOUR_CALM s, true) else (s, false)
      else (s, false) in
    if stop then s
    else match get s sid with
    | Some x =>
      let s := upd sid (fun x => set_st_state CLOSED (set_st_err code (set_st_rstr true x))) s in
      let s := if (negb (st_disp x) || negb (st_ends x)) && negb (code =? NO_ERROR) then note (LErr sid code) s else s in
      try_close sid s
    | None => if sv_last s <? sid then goaway PROTOCOL_ERROR s else s
    end.

(** server.h:814-882: the loop of on(GoAwayFrame) *)
Fixpoint goaway_streams (last code : N) (order : list N) (s : server) : server :=
  match order with
  | [] => s
  | sid :: r =>
    match get s sid with
    | None => goaway_streams last code r s
    | Some x =>
      if negb (odd_id sid) then
        let close := ((last <? st_parent x) && negb (last =? 0))
                     || (match get s (st_parent x) with
                         | Some _ => odd_id (st_parent x) && (last <? st_parent x)
                         | None => true
                         end) in
        if close && negb (is_state (st_state x) CLOSED)
        then goaway_streams last code r (erase sid (note (LErr sid (if code =? NO_ERROR then CANCEL else code)) s))
        else goaway_streams last code r s
      else if (last <? sid) && negb (is_state (st_state x) IDLE) && negb (is_state (st_state x) CLOSED)
      then goaway_streams last code r (erase sid (note (LErr sid (if code =? NO_ERROR then STREAM_CLOSED else code)) s))
      else goaway_streams last code r s
    end
  end.

(** server.h:795-894 on(GoAwayFrame) *)
Definition on_goaway (last code : N) (ord : list N -> list N) (s : server) : server :=
  if negb (sv_ok s) && sv_grace s then s
  else
    let s := set_sv_gal last (set_sv_grace true s) in
    let s := note (LBye code last) s in
    let s := goaway_streams last code (ord (map fst (sv_streams s))) s in
    if negb (code =? NO_ERROR) then set_sv_ok false (set_sv_active false s)
    else if all_relevant_closed (sv_gal s) s then set_sv_ok false (set_sv_active false s)
    else s.

(** server.h:927-942: retrying every stream with pending data *)
Fixpoint flush_pending (order : list N) (s : server) : server :=
  match order with
  | [] => s
  | sid :: r =>
    match get s sid with
    | None => flush_pending r s
    | Some x =>
      if st_pend x then
        let s := try_send_pending sid s in
        if negb (sv_active s) then s else flush_pending r s
      else flush_pending r s
    end
  end.

(** server.h:900-983 on(WindowUpdateFrame) *)
Definition on_window_update (h : fhdr) (inc : N) (ord : list N -> list N) (s : server) : server :=
  let sid := get_stream_id h in
  if inc =? 0 then
    if sid =? 0 then goaway PROTOCOL_ERROR s else rst_stream sid PROTOCOL_ERROR true s
  else if sid =? 0 then
    if (2147483647 - Z.of_N inc <? sv_csend s)%Z then goaway FLOW_CONTROL_ERROR s
    else
      let s := set_sv_csend (sv_csend s + Z.of_N inc)%Z s in
      flush_pending (ord (map fst (filter (fun p => st_pend (snd p)) (sv_streams s)))) s
  else match get s sid with
  | None => if sv_last s <? sid then goaway PROTOCOL_ERROR s else s
  | Some x =>
    if is_state (st_state x) IDLE then rst_stream sid PROTOCOL_ERROR true s
    else if is_state (st_state x) CLOSED then
      if (2147483647 - Z.of_N inc <? st_peer x)%Z then rst_stream sid FLOW_CONTROL_ERROR true s else s
    else if (2147483647 - Z.of_N inc <? st_peer x)%Z then rst_stream sid FLOW_CONTROL_ERROR true s
    else
      let s := upd sid (fun x => set_st_peer (st_peer x + Z.of_N inc)%Z x) s in
      if st_pend x then try_send_pending sid s else s
  end.

(** server.h:989-1028 on(PingFrame) *)
Definition on_ping (h : fhdr) (opaque : list N) (s : server) : server :=
  if negb (alive s) then s
  else if negb (get_stream_id h =? 0) then goaway PROTOCOL_ERROR s
  else if has_flag (h_flags h) FLAG_ACK then s
  else
    let s := set_sv_ctl (sv_ctl s + 1) s in
    if MAX_QUEUED_CONTROL_REPLIES <? sv_ctl s then goaway ENHANCE_YOUR_CALM s
    else emit (mk_frame (mk_h T_PING FLAG_ACK 0) (PPing opaque)) s.

(** server.h:1034-1057 on(PriorityFrame): the stored priority is never read *)
Definition on_priority (h : fhdr) (s : server) : server :=
  if negb (alive s) then s else if get_stream_id h =? 0 then goaway PROTOCOL_ERROR s else s.

(** server.h:230-253 on(PrefaceCompleteEvent); the map order of the six entries is fixed here *)
Definition our_settings : list (N * N) := [(1, 4096); (2, 0); (3, 50); (4, 65535); (5, 16384); (6, 4294967295)].
Definition on_preface (s : server) : server :=
  if negb (alive s) then s
  else if sv_setsent s then s
  else set_sv_setsent true (emit (mk_frame (mk_h T_SETTINGS 0 0) (PSettings our_settings)) s).

(** One frame; the handler is chosen by the payload type (base.h:1074-1374). *)
Definition on_frame (f : frame) (a : appact) (ord : list N -> list N) (s : server) : server :=
  let h := fr_hdr f in
  match fr_pl f with
  | PData d pad => on_data h d pad a s
  | PHeaders frag _ => on_headers h frag a s
  | PCont frag => on_continuation h frag a s
  | PSettings es => on_settings h es ord s
  | PRst code => on_rst h code s
  | PPush _ _ => goaway PROTOCOL_ERROR s                          (* server.h:785-789 *)
  | PGoaway last code _ => on_goaway last code ord s
  | PWindow inc => on_window_update h inc ord s
  | PPing o => on_ping h o s
  | PPriority _ => on_priority h s
  end.

(** server.h:2349-2358 handle_framer_detected_error; report_frame_error (base.h:789-794) has already called not_ok *)
Definition on_framer_error (code sid : N) (s : server) : server :=
  let s := set_sv_ok false s in
  if negb (sid =? 0) then rst_stream sid code true s else goaway code s.

(** What can happen to a connection. *)
Inductive sevent :=
| SPreface
| SFrame (f : frame) (a : appact) (ord : list N -> list N)
| SFramerError (code sid : N)
| SNotOk                            (* not_ok() called by the framer or the transport *)
| SApp (c : appcmd)                 (* a call from outside any handler *)
| STick (t : N).                    (* the clock advances by t milliseconds *)

(** The framer delivers nothing once the protocol is not ok (base.h drive loop, 1077). *)
Definition step (s : server) (e : sevent) : server :=
  match e with
  | SPreface => on_preface s
  | SFrame f a ord => if sv_ok s then on_frame f a ord (note (LIn f) s) else s
  | SFramerError code sid => on_framer_error code sid s
  | SNotOk => set_sv_ok false s
  | SApp c => run_cmd c s
  | STick t => set_sv_now (sv_now s + t) s
  end.
Definition run (es : list sevent) : server := fold_left step es server_init.
End SERVER.
