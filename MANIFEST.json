{
 "claims": [
  {
   "property": "C01",
   "status": "proved",
   "theorems": [
    "C01_frame_round_trip",
    "C01_valid_frames_serialize"
   ],
   "note": ""
  },
  {
   "property": "C02",
   "status": "proved",
   "theorems": [
    "C02_wire_format",
    "C02_wire_format_extensions",
    "C02_serialize_refuses"
   ],
   "note": ""
  },
  {
   "property": "C03",
   "status": "proved",
   "theorems": [
    "C03_masking_is_xor",
    "C03_masking_involution",
    "C03_bad_key_rejected"
   ],
   "note": ""
  },
  {
   "property": "C04",
   "status": "proved",
   "theorems": [
    "C04_sse2_equals_python",
    "C04_64bit_equals_python"
   ],
   "note": ""
  },
  {
   "property": "C05",
   "status": "proved",
   "theorems": [
    "C05_frame_acceptance",
    "C05_accepted_frames_were_received",
    "C05_oversize_rejected_early"
   ],
   "note": ""
  },
  {
   "property": "C06",
   "status": "proved",
   "theorems": [
    "C06_close_round_trip",
    "C06_close_build_exact",
    "C06_close_parse_exact",
    "C06_reserved_codes_not_built"
   ],
   "note": ""
  },
  {
   "property": "C07",
   "status": "proved",
   "theorems": [
    "C07_chunking_irrelevant",
    "C07_server_chunking_irrelevant",
    "C07_client_chunking_irrelevant"
   ],
   "note": ""
  },
  {
   "property": "C08",
   "status": "partial",
   "theorems": [
    "C08_delivery_partial",
    "C08_close_within_message_refuted"
   ],
   "note": "Partial: messages are delivered unless a close frame is sent inside a fragmented message. Refuted in general: see the witness."
  },
  {
   "property": "C09",
   "status": "proved",
   "theorems": [
    "C09_oversize_refused",
    "C09_message_size"
   ],
   "note": ""
  },
  {
   "property": "C10",
   "status": "proved",
   "theorems": [
    "C10_delivered_messages",
    "C10_close_between_messages"
   ],
   "note": ""
  },
  {
   "property": "C11",
   "status": "proved",
   "theorems": [
    "C11_sent_messages",
    "C11_only_in_order"
   ],
   "note": ""
  },
  {
   "property": "C12",
   "status": "proved",
   "theorems": [
    "C12_close_frame_once_and_last"
   ],
   "note": ""
  },
  {
   "property": "C13",
   "status": "partial",
   "theorems": [
    "C13_eof_at_most_once",
    "C13_eof_last_partial",
    "C13_eof_last_refuted",
    "C13_server_eof_follows_close",
    "C13_client_eof_after_peer"
   ],
   "note": "EOF is sent at most once, unconditionally. That nothing is written after it is proved unless a call raised EOFError (the peer's stream ended without a close frame); refuted otherwise."
  },
  {
   "property": "C14",
   "status": "proved",
   "theorems": [
    "C14_pings_answered"
   ],
   "note": ""
  },
  {
   "property": "C15",
   "status": "partial",
   "theorems": [
    "C15_ping_while_closing_refuted",
    "C15_partial"
   ],
   "note": "Proved for pings received in OPEN or after the peer's close frame; refuted for pings received after the close frame was sent and before the peer's (the library fails the connection)."
  },
  {
   "property": "C16",
   "status": "proved",
   "theorems": [
    "C16_close_received"
   ],
   "note": ""
  },
  {
   "property": "C17",
   "status": "proved",
   "theorems": [
    "C17_failing_the_connection"
   ],
   "note": ""
  },
  {
   "property": "C18",
   "status": "proved",
   "theorems": [
    "C18_errors_are_sticky"
   ],
   "note": ""
  },
  {
   "property": "C19",
   "status": "proved",
   "theorems": [
    "C19_no_data_after_close"
   ],
   "note": ""
  },
  {
   "property": "C20",
   "status": "proved",
   "theorems": [
    "C20_state_moves_forward"
   ],
   "note": ""
  },
  {
   "property": "C21",
   "status": "proved",
   "theorems": [
    "C21_wrong_masking_refused",
    "C21_masking"
   ],
   "note": ""
  },
  {
   "property": "C22",
   "status": "partial",
   "theorems": [
    "C22_partial",
    "C22_refuted",
    "C22_close_after_eof_refuted"
   ],
   "note": "Proved: a send method that raises writes nothing and keeps the state; without extensions, control frames change nothing at all and data frames change nothing at all in OPEN. Refuted: expect_continuation changes outside OPEN; send_close on a server after an unexpected EOF."
  },
  {
   "property": "C23",
   "status": "partial",
   "theorems": [
    "C23_partial",
    "C23_unset_refuted"
   ],
   "note": "Proved when a close frame was received; refuted when the stream ends without one."
  },
  {
   "property": "C24",
   "status": "proved",
   "theorems": [
    "C24_request_round_trip"
   ],
   "note": ""
  },
  {
   "property": "C25",
   "status": "proved",
   "theorems": [
    "C25_response_round_trip",
    "C25_response_until_eof"
   ],
   "note": ""
  },
  {
   "property": "C26",
   "status": "proved",
   "theorems": [
    "C26_request_accepted_exactly",
    "C26_response_within_limits",
    "C26_too_many_headers",
    "C26_request_line_too_long",
    "C26_header_line_too_long"
   ],
   "note": ""
  },
  {
   "property": "C27",
   "status": "proved",
   "theorems": [
    "C27_reads_exact",
    "C27_reads_wait"
   ],
   "note": ""
  },
  {
   "property": "C28",
   "status": "proved",
   "theorems": [
    "C28_multimap",
    "C28_heap_model"
   ],
   "note": ""
  },
  {
   "property": "C29",
   "status": "partial",
   "theorems": [
    "C29_copy_partial",
    "C29_copy_refuted"
   ],
   "note": "Proved for copies whose mutations don't set a header that the original has; refuted for the others (the lists of values are shared)."
  },
  {
   "property": "C30",
   "status": "partial",
   "theorems": [
    "C30_injection_refuted",
    "C30_no_injection_partial"
   ],
   "note": "Proved for values without CR and LF; refuted otherwise, since the library doesn't check values."
  },
  {
   "property": "C31",
   "status": "partial",
   "theorems": [
    "C31_extension_header_round_trip",
    "C31_empty_refuted"
   ],
   "note": "Proved for non-empty lists; the empty list is built as an empty header, which isn't parsed."
  },
  {
   "property": "C32",
   "status": "proved",
   "theorems": [
    "C32_subprotocol_header_round_trip"
   ],
   "note": ""
  },
  {
   "property": "C33",
   "status": "partial",
   "theorems": [
    "C33_quotable",
    "C33_quoted_string_round_trip_partial",
    "C33_quoted_string_refuted"
   ],
   "note": "Proved for characters below 0x80; refuted for 0x80-0xff."
  },
  {
   "property": "C34",
   "status": "proved",
   "theorems": [
    "C34_connection_grammar",
    "C34_upgrade_grammar",
    "C34_subprotocol_grammar",
    "C34_extension_grammar"
   ],
   "note": ""
  },
  {
   "property": "C35",
   "status": "proved",
   "theorems": [
    "C35_basic_auth_round_trip"
   ],
   "note": ""
  },
  {
   "property": "C36",
   "status": "partial",
   "theorems": [
    "C36_malformed_credentials_partial",
    "C36_malformed_credentials_refuted"
   ],
   "note": "Proved without Authorization header or with a single one that isn't made of Basic credentials; refuted for credentials that aren't UTF-8 and for several headers."
  },
  {
   "property": "C37",
   "status": "partial",
   "theorems": [
    "C37_access_iff_configured",
    "C37_list_pair_refuted"
   ],
   "note": "Equivalence proved for all credentials given as tuples; a pair given as a list never matches (refuted)."
  },
  {
   "property": "C38",
   "status": "proved",
   "theorems": [
    "C38_valid_request_accepted",
    "C38_only_valid_requests_accepted",
    "C38_opens_only_on_101",
    "C38_open_after_handshake"
   ],
   "note": ""
  },
  {
   "property": "C39",
   "status": "partial",
   "theorems": [
    "C39_statuses_partial",
    "C39_statuses_refuted"
   ],
   "note": "Proved for requests without non-ASCII characters; refuted otherwise."
  },
  {
   "property": "C40",
   "status": "proved",
   "theorems": [
    "C40_opens_only_on_valid_response",
    "C40_opens_iff_valid_response"
   ],
   "note": ""
  },
  {
   "property": "C41",
   "status": "partial",
   "theorems": [
    "C41_agreement_partial",
    "C41_agreement_refuted"
   ],
   "note": "Proved for configurations without empty lists; refuted for extensions=[] or subprotocols=[]."
  },
  {
   "property": "C42",
   "status": "proved",
   "theorems": [
    "C42_accept_key",
    "C42_generated_keys_valid"
   ],
   "note": ""
  },
  {
   "property": "C43",
   "status": "proved",
   "theorems": [
    "C43_subprotocol_choice"
   ],
   "note": ""
  },
  {
   "property": "C44",
   "status": "proved",
   "theorems": [
    "C44_origin_policy"
   ],
   "note": ""
  },
  {
   "property": "C45",
   "status": "proved",
   "theorems": [
    "C45_settings_agree"
   ],
   "note": ""
  },
  {
   "property": "C46",
   "status": "partial",
   "theorems": [
    "C46_server_honours",
    "C46_client_honours",
    "C46_offer_accepted_partial",
    "C46_answer_accepted_partial",
    "C46_answer_accepted_refuted",
    "C46_offer_accepted_refuted"
   ],
   "note": "The negotiated parameters always honour both configurations (full). That the other side accepts them is proved except for windows of 8 bits, which zlib refuses (refuted)."
  },
  {
   "property": "C47",
   "status": "proved",
   "theorems": [
    "C47_server_validates",
    "C47_client_validates",
    "C47_valid_accepted"
   ],
   "note": ""
  },
  {
   "property": "C48",
   "status": "proved",
   "theorems": [
    "C48_frames_round_trip"
   ],
   "note": ""
  },
  {
   "property": "C49",
   "status": "proved",
   "theorems": [
    "C49_encode",
    "C49_decode"
   ],
   "note": ""
  },
  {
   "property": "C50",
   "status": "partial",
   "theorems": [
    "C50_size_limit_partial",
    "C50_size_limit_refuted"
   ],
   "note": "Proved: a message may exceed max_size only after fragments whose total size is exactly max_size; refuted in that case, since zlib takes 0 for no limit."
  },
  {
   "property": "C51",
   "status": "partial",
   "theorems": [
    "C51_server_frames_after_request_partial",
    "C51_client_frames_after_response_partial",
    "C51_no_frame_before_handshake_refuted"
   ],
   "note": "Proved: frames are delivered only after the whole request (or response). Refuted: that the handshake must have succeeded."
  },
  {
   "property": "C52",
   "status": "proved",
   "theorems": [
    "C52_at_most_ten_handshakes",
    "C52_follows_redirects",
    "C52_never_downgrades",
    "C52_downgrade_refused",
    "C52_too_many_redirects"
   ],
   "note": ""
  },
  {
   "property": "C53",
   "status": "partial",
   "theorems": [
    "C53_wss_uses_tls_partial",
    "C53_wss_uses_tls_refuted"
   ],
   "note": "Proved for wss URIs with the default ssl argument or a context; refuted after a redirect from ws to wss and for ssl=None."
  },
  {
   "property": "C54",
   "status": "partial",
   "theorems": [
    "C54_components",
    "C54_port_zero_refuted",
    "C54_accepted",
    "C54_refused",
    "C54_empty_fragment_refuted",
    "C54_iri",
    "C54_iri_percent_refuted"
   ],
   "note": "Full characterisation of the components; three refutations: port 0, empty fragment, double encoding in IRIs."
  },
  {
   "property": "C55",
   "status": "proved",
   "theorems": [
    "C55_valid_text",
    "C55_invalid_text"
   ],
   "note": ""
  },
  {
   "property": "C56",
   "status": "proved",
   "theorems": [
    "C56_messages",
    "C56_wire"
   ],
   "note": ""
  },
  {
   "property": "C57",
   "status": "partial",
   "theorems": [
    "C57_returned_once",
    "C57_first_in_first_out",
    "C57_message_in_hand",
    "C57_available",
    "C57_message_in_hand_refuted"
   ],
   "note": "Order, uniqueness and availability are proved; a message in the hands of transfer_data may be lost (C57_message_in_hand says exactly when, and a witness is given)."
  },
  {
   "property": "C58",
   "status": "proved",
   "theorems": [
    "C58_queue_bounded"
   ],
   "note": ""
  },
  {
   "property": "C59",
   "status": "partial",
   "theorems": [
    "C59_no_spurious_error",
    "C59_one_call_waits_partial",
    "C59_concurrent_call_partial",
    "C59_woken_partial",
    "C59_concurrent_call_refuted",
    "C59_woken_refuted"
   ],
   "note": "No spurious RuntimeError: proved in general. The rest is proved for schedules in which no call overtakes a call that was woken up; refuted otherwise."
  },
  {
   "property": "C60",
   "status": "partial",
   "theorems": [
    "C60_not_interleaved_partial",
    "C60_asynchronous_iterables_refuted",
    "C60_cancellation_refuted"
   ],
   "note": "Proved when asynchronous iterables and fragmented messages don't overlap another send() in the way that no_overlap excludes; refuted otherwise."
  },
  {
   "property": "C61",
   "status": "proved",
   "theorems": [
    "C61_one_close_frame"
   ],
   "note": ""
  },
  {
   "property": "C62",
   "status": "proved",
   "theorems": [
    "C62_states_in_order",
    "C62_closed_when_lost"
   ],
   "note": ""
  },
  {
   "property": "C63",
   "status": "proved",
   "theorems": [
    "C63_pending_pings",
    "C63_matching_pong",
    "C63_unknown_pong",
    "C63_only_pongs_complete_pings"
   ],
   "note": ""
  },
  {
   "property": "C64",
   "status": "proved",
   "theorems": [
    "C64_pings_fail_when_lost",
    "C64_no_ping_pending_when_closed"
   ],
   "note": ""
  },
  {
   "property": "C65",
   "status": "partial",
   "theorems": [
    "C65_close_code",
    "C65_exception",
    "C65_exception_recv",
    "C65_stable_refuted"
   ],
   "note": "Proved in full except for stability: the code may change from 1006 to the received code (refuted)."
  },
  {
   "property": "C66",
   "status": "proved",
   "theorems": [
    "C66_close_terminates"
   ],
   "note": ""
  },
  {
   "property": "C67",
   "status": "partial",
   "theorems": [
    "C67_ping_during_close_refuted"
   ],
   "note": "Refuted by a witness: the closing handshake stalls until the timeout."
  },
  {
   "property": "C68",
   "status": "partial",
   "theorems": [
    "C68_send_after_closing_partial",
    "C68_waiting_refuted",
    "C68_os_error_refuted",
    "C68_abort_refuted"
   ],
   "note": "Proved for calls made after the closing started; refuted for calls that were already waiting."
  },
  {
   "property": "C69",
   "status": "partial",
   "theorems": [
    "C69_no_connection_opens",
    "C69_handshake_fails",
    "C69_going_away",
    "C69_code_1001",
    "C69_handlers_returned_partial",
    "C69_handlers_returned_refuted",
    "C69_no_open_connection_partial",
    "C69_no_open_connection_refuted"
   ],
   "note": "Proved: no connection opens, 503, close(1001). The last part (handlers have returned, no connection is open) is proved if connections are made before the closing task looks for them, and for handlers that aren't cancelled; refuted otherwise."
  },
  {
   "property": "C70",
   "status": "partial",
   "theorems": [
    "C70_unregistered",
    "C70_transport_closed_partial",
    "C70_transport_closed_refuted"
   ],
   "note": "Unregistration is proved. The TCP connection is closed or being closed unless the handler was cancelled, in which case it's refuted."
  },
  {
   "property": "C71",
   "status": "proved",
   "theorems": [
    "C71_same_response",
    "C71_same_parameters",
    "C71_opens_iff_valid_request"
   ],
   "note": ""
  },
  {
   "property": "C72",
   "status": "proved",
   "theorems": [
    "C72_same_decision",
    "C72_opens_iff_valid_response"
   ],
   "note": ""
  },
  {
   "property": "C73",
   "status": "partial",
   "theorems": [
    "C73_redirect_peer_partial",
    "C73_cross_origin_redirect_refuted",
    "C73_relative_redirect_refuted"
   ],
   "note": "Proved without path and sock; with them, redirects to another host fail (refuted). Relative references aren't followed (C73_relative_redirect_refuted)."
  },
  {
   "property": "C74",
   "status": "proved",
   "theorems": [
    "C74_send"
   ],
   "note": ""
  },
  {
   "property": "C75",
   "status": "partial",
   "theorems": [
    "C75_end_to_end_partial",
    "C75_compressed_partial"
   ],
   "note": "Proved without extensions and with permessage-deflate, for executions in which send() calls don't overlap as described by no_overlap (see C60, which is refuted otherwise). With compression each piece of data given to send() is smaller than 2^56."
  },
  {
   "property": "C76",
   "status": "partial",
   "theorems": [
    "C76_connections_closed_partial",
    "C76_connections_closed_refuted"
   ],
   "note": "Refuted as documented. Proved: they're closed or being closed, for connections made in time and handlers that aren't cancelled."
  },
  {
   "property": "C77",
   "status": "proved",
   "theorems": [
    "C77_server_connection",
    "C77_one_close_frame",
    "C77_queue_bounded"
   ],
   "note": ""
  },
  {
   "property": "C78",
   "status": "partial",
   "theorems": [
    "C78_dead_peer_partial",
    "C78_code_1011",
    "C78_no_false_alarm",
    "C78_write_buffer_refuted",
    "C78_early_pong_refuted"
   ],
   "note": "The delay is proved if keepalive pings are flushed at once; refuted when the write buffer is full (no bound, or the keepalive task ends). The close code and the absence of false alarms are proved."
  },
  {
   "property": "C79",
   "status": "proved",
   "theorems": [
    "C79_pings_answered",
    "C79_nothing_read_after"
   ],
   "note": ""
  },
  {
   "property": "C80",
   "status": "partial",
   "theorems": [
    "C80_created_connection_partial",
    "C80_no_call_hangs_partial",
    "C80_runs_are_bounded",
    "C80_cancelled_close_refuted",
    "C80_long_reason_refuted",
    "C80_os_error_refuted",
    "C80_asynchronous_iterables_refuted"
   ],
   "note": "Proved: once the connection is closed, tasks and calls run a bounded number of times until nothing can run (no hypothesis); a state in which the connection is lost and nothing can run has no pending call, unless the queue is full. Hypotheses: fragmented messages don't overlap, close() isn't cancelled while writing and its reason fits in a Close frame, the connection isn't lost with an unusual OSError, close_timeout is set. Each of the first four is shown necessary by a refutation."
  },
  {
   "property": "C81",
   "status": "partial",
   "theorems": [
    "C81_connections_closed_partial",
    "C81_closing_ends",
    "C81_cancelled_handshake_refuted",
    "C81_previous_connections_closed",
    "C81_at_most_ten_connections",
    "C81_returns_open",
    "C81_async_with_closes"
   ],
   "note": "Proved when connect() raises an exception, returns, or is cancelled while it makes or closes a TCP connection. Refuted when it's cancelled during the opening handshake: the TCP connection stays open."
  },
  {
   "property": "C82",
   "status": "proved",
   "theorems": [
    "C82_client_connection",
    "C82_attempts",
    "C82_never_downgrades"
   ],
   "note": ""
  },
  {
   "property": "C83",
   "status": "partial",
   "theorems": [
    "C83_yields_in_order",
    "C83_normal_end",
    "C83_exception",
    "C83_loop_ends",
    "C83_legacy_recv_refuted"
   ],
   "note": "Proved when the loop is the only receiver and legacy_recv is False. With legacy_recv=True the loop never ends normally (refuted)."
  },
  {
   "property": "C84",
   "status": "proved",
   "theorems": [
    "C84_backpressure",
    "C84_no_lost_wakeup",
    "C84_becomes_idle",
    "C84_exceptions"
   ],
   "note": "asyncio.Lock is modelled without its queue: any waiting task may take it when it's free. The model is separate from the transition system of connections, where the end of write_frame is one suspension point."
  },
  {
   "property": "C85",
   "status": "partial",
   "theorems": [
    "C85_agreement_refuted",
    "C85_agreement_partial"
   ],
   "note": "Same hypotheses as C41: lists given by the client aren't empty, window sizes that zlib supports, headers that can be written. C85_agreement_refuted: an empty list of subprotocols, or of extensions without compression, is refused with 400."
  },
  {
   "property": "C86",
   "status": "partial",
   "theorems": [
    "C86_origin",
    "C86_symmetric",
    "C86_close_code_end_to_end",
    "C86_same_code",
    "C86_compressed_partial"
   ],
   "note": "With permessage-deflate, fragmented messages mustn't overlap (C60) and messages must be small enough for the wire format, as in C75."
  },
  {
   "property": "C87",
   "status": "partial",
   "theorems": [
    "C87_compressed_partial",
    "C87_compressed_close_code_partial",
    "C87_no_protocol_error_partial",
    "C87_close_code_partial",
    "C87_overlap_refuted"
   ],
   "note": "When the fragmented messages of the sender don't overlap (C60): otherwise C87_overlap_refuted shows that the receiver fails the connection with 1002. Without extensions, and with permessage-deflate for any zlib that behaves as documented (messages below 2^56 characters or bytes)."
  },
  {
   "property": "C88",
   "status": "partial",
   "theorems": [
    "C88_compressed_partial",
    "C88_handshake_completes_partial",
    "C88_ping_refuted"
   ],
   "note": "Without extensions, and with permessage-deflate for any zlib that behaves as documented (messages below 2^56 characters or bytes); requires that the queue of messages isn't full and that the last frame received isn't a ping: C88_ping_refuted shows that an end which receives a ping after it sent its Close frame waits for the timeout of close() (the finding of C67)."
  },
  {
   "property": "C89",
   "status": "partial",
   "theorems": [
    "C89_shows_in_order",
    "C89_shows_everything",
    "C89_sends_in_order",
    "C89_writes_lines",
    "C89_says_why",
    "C89_explanations_differ",
    "C89_user_stop",
    "C89_main_thread",
    "C89_ends",
    "C89_dead",
    "C89_stops",
    "C89_typed_lines_refuted",
    "C89_received_messages_refuted",
    "C89_interrupted_refuted",
    "C89_ends_refuted",
    "C89_display_refuted"
   ],
   "note": "Requires legacy_recv=False, which is the default. C89_typed_lines_refuted: lines typed just before ^D aren't all sent. C89_received_messages_refuted: messages received before the close frame aren't all shown if the user types a line at this point. C89_ends_refuted: the program hangs if close() raises an exception (C89_dead says when). C89_interrupted_refuted: ^D typed while the server closes the connection may end the program with an exception. C89_display_refuted: what is shown doesn't identify the messages."
  },
  {
   "property": "C90",
   "status": "partial",
   "theorems": [
    "C90_same_frames",
    "C90_same_messages",
    "C90_all_read",
    "C90_same_failures",
    "C90_same_answers",
    "C90_close_codes_refuted",
    "C90_invalid_text_refuted"
   ],
   "note": "Without extensions. C90_close_codes_refuted: the codes differ when a close frame comes in the middle of a fragmented message. C90_invalid_text_refuted: the sans-I/O connection doesn't fail when text isn't valid UTF-8."
  },
  {
   "property": "C91",
   "status": "partial",
   "theorems": [
    "C91_no_failure",
    "C91_data",
    "C91_closing_handshake",
    "C91_same_code",
    "C91_ping_refuted"
   ],
   "note": "Without extensions. C91_ping_refuted: the condition about pings cannot be dropped; for close frames in the middle of a message, see C08."
  },
  {
   "property": "C92",
   "status": "proved",
   "theorems": [
    "C92_no_failure",
    "C92_data",
    "C92_closing_handshake",
    "C92_same_code"
   ],
   "note": "For every zlib satisfying correct_zlib, expands_little, can_compress and can_decompress (Spec/Deflate.v); C92_applies has an instance. The conditions of C91 about pings and Close frames in the middle of a message apply."
  },
  {
   "property": "C93",
   "status": "proved",
   "theorems": [
    "C93_end_to_end"
   ],
   "note": "The conditions on the configurations are those of C41_agreement_partial; those on what is exchanged after the handshake are those of C92 (receives_from in Spec/Endpoints.v)."
  },
  {
   "property": "C94",
   "status": "proved",
   "theorems": [
    "C94_client_argument",
    "C94_server_argument",
    "C94_default_compresses"
   ],
   "note": "C94_default_compresses is for the asyncio handshakes, under the hypotheses of C85_agreement_partial. When both sides are given a configuration, the only ones that aren't compatible are those where the server requires client_max_window_bits and the client doesn't support it: see the conclusion of C85_agreement_partial."
  },
  {
   "property": "C95",
   "status": "proved",
   "theorems": [
    "C95_equality",
    "C95_update",
    "C95_constructor"
   ],
   "note": "Names are compared as ASCII, like in C28. Headers(h) lowers the names and refuses repeated headers, unlike h.copy()."
  },
  {
   "property": "C96",
   "status": "partial",
   "theorems": [
    "C96_end_to_end_partial"
   ],
   "note": "Under the hypotheses of C85 (see its note) for the handshake, and of C75, C86, C87 and C88 with compression for the connection: fragmented messages don't overlap and messages are small enough for the wire format."
  },
  {
   "property": "C97",
   "status": "proved",
   "theorems": [
    "C97_arguments_reach_connection",
    "C97_default_limits",
    "C97_close_terminates",
    "C97_origins"
   ],
   "note": "Durations are whole numbers. read_limit, write_limit, loop, host, port and secure are not modelled, nor create_protocol. The bound on close() is that of C66."
  },
  {
   "property": "C98",
   "status": "proved",
   "theorems": [
    "C98_defaults_work",
    "C98_visible_uri",
    "C98_iri",
    "C98_connect_uri"
   ],
   "note": "Composition of C94 and C96 with the default values, whose hypotheses about the handshake are discharged: what remains is about zlib, the URI (Spec/Requestable.v) and the User-Agent, Server and Date headers. As in C96, fragmented messages must not overlap (C60) and messages are small enough for the wire format. C98_visible_uri and C98_connect_uri start from the text of the URI: visible ASCII characters, at most 2990, accepted by parse_uri. C98_iri: so can any IRI of at most 240 characters, once its host is encoded to visible ASCII characters."
  },
  {
   "property": "C99",
   "status": "partial",
   "theorems": [
    "C99_lazy_import",
    "C99_unknown_name",
    "C99_dir_partial",
    "C99_public_names",
    "C99_public_modules",
    "C99_compatibility_names",
    "C99_star_import",
    "C99_modules_import",
    "C99_dir_refuted"
   ],
   "note": "C99_lazy_import and C99_unknown_name hold for any program; the others are about the files of websockets, whose tables are generated from the source (Model/ImportTables.v). dir() lists every alias and every name bound before lazy_import() is called (C99_dir_partial), but not the names defined afterwards (C99_dir_refuted). Modules are executed at once; imports made by a module are separate operations."
  },
  {
   "property": "C100",
   "status": "partial",
   "theorems": [
    "C100_credentials_of_the_uri",
    "C100_not_forwarded",
    "C100_peer",
    "C100_extra_headers",
    "C100_extra_headers_refuted",
    "C100_any_credentials_refuted"
   ],
   "note": "The parts about extra_headers and about percent-encoding are false: C100_extra_headers_refuted, C100_any_credentials_refuted. The rest is proved, for arguments extra_headers that don't include Authorization or Host. Iterators given as extra_headers aren't modelled."
  },
  {
   "property": "C101",
   "status": "partial",
   "theorems": [
    "C101_login",
    "C101_two_headers_refuted"
   ],
   "note": "For requests that can be written, as in C85, and extra_headers without Authorization. With the credentials of a user, the rest of the handshake is that of C71 and C85. With Authorization in extra_headers too, the response is 500 (C101_two_headers_refuted)."
  },
  {
   "property": "C102",
   "status": "partial",
   "theorems": [
    "C102_serve",
    "C102_unix_serve",
    "C102_path_refuted",
    "C102_warnings",
    "C102_client_attributes_partial",
    "C102_secure_refuted",
    "C102_unix_connect"
   ],
   "note": "loop.create_server() and loop.create_unix_server() are modelled from asyncio, up to the system calls. The path of serve() without unix is ignored (C102_path_refuted); with a wss URI and ssl=None, secure is True without TLS (C102_secure_refuted)."
  },
  {
   "property": "C103",
   "status": "partial",
   "theorems": [
    "C103_any_pieces",
    "C103_any_pieces_client",
    "C103_same_request",
    "C103_bounded",
    "C103_small_limit_refuted"
   ],
   "note": "Proved for read_limit >= 8218 (the default is 65536), and for streams that end or whose rest isn't needed. Smaller values refuse long lines (C103_small_limit_refuted)."
  },
  {
   "property": "C104",
   "status": "proved",
   "theorems": [
    "C104_bounded",
    "C104_no_deadlock",
    "C104_pauses",
    "C104_resumes",
    "C104_hysteresis",
    "C104_waits",
    "C104_progress",
    "C104_content"
   ],
   "note": "asyncio.StreamReader is modelled from Python 3.12, without EOF and exceptions; the size of reads and of pieces of data is arbitrary."
  },
  {
   "property": "C105",
   "status": "partial",
   "theorems": [
    "C105_bounded_with_cancellations",
    "C105_bounded_partial",
    "C105_cancelled_refuted",
    "C105_waits",
    "C105_drain",
    "C105_hysteresis",
    "C105_progress"
   ],
   "note": "Each call of send() that is cancelled while it waits adds at most a frame to the bound (C105_bounded_with_cancellations), so that the bound is false if they are cancelled (C105_cancelled_refuted); the other theorems allow cancellation. Errors and the end of the connection are those of C84."
  },
  {
   "property": "C106",
   "status": "partial",
   "theorems": [
    "C106_addresses",
    "C106_before",
    "C106_lost_tls",
    "C106_not_open_refuted"
   ],
   "note": "The second sentence, from the documentation, is false during the handshakes (C106_addresses) and over TCP after the connection is lost (C106_not_open_refuted)."
  }
 ]
}