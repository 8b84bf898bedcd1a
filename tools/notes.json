{
 "C08": {
  "note": "Partial: messages are delivered unless a close frame is sent inside a fragmented message. Refuted in general: see the witness."
 },
 "C13": {
  "note": "EOF is sent at most once, unconditionally. That nothing is written after it is proved unless a call raised EOFError (the peer's stream ended without a close frame); refuted otherwise."
 },
 "C15": {
  "note": "Proved for pings received in OPEN or after the peer's close frame; refuted for pings received after the close frame was sent and before the peer's (the library fails the connection)."
 },
 "C22": {
  "note": "Proved: a send method that raises writes nothing and keeps the state; without extensions, control frames change nothing at all and data frames change nothing at all in OPEN. Refuted: expect_continuation changes outside OPEN; send_close on a server after an unexpected EOF."
 },
 "C23": {
  "note": "Proved when a close frame was received; refuted when the stream ends without one."
 },
 "C29": {
  "note": "Proved for copies whose mutations don't set a header that the original has; refuted for the others (the lists of values are shared)."
 },
 "C30": {
  "note": "Proved for values without CR and LF; refuted otherwise, since the library doesn't check values."
 },
 "C31": {
  "note": "Proved for non-empty lists; the empty list is built as an empty header, which isn't parsed."
 },
 "C33": {
  "note": "Proved for characters below 0x80; refuted for 0x80-0xff."
 },
 "C36": {
  "note": "Proved without Authorization header or with a single one that isn't made of Basic credentials; refuted for credentials that aren't UTF-8 and for several headers."
 },
 "C37": {
  "note": "Equivalence proved for all credentials given as tuples; a pair given as a list never matches (refuted)."
 },
 "C39": {
  "note": "Proved for requests without non-ASCII characters; refuted otherwise."
 },
 "C41": {
  "note": "Proved for configurations without empty lists; refuted for extensions=[] or subprotocols=[]."
 },
 "C46": {
  "note": "The negotiated parameters always honour both configurations (full). That the other side accepts them is proved except for windows of 8 bits, which zlib refuses (refuted)."
 },
 "C50": {
  "note": "Proved: a message may exceed max_size only after fragments whose total size is exactly max_size; refuted in that case, since zlib takes 0 for no limit."
 },
 "C51": {
  "note": "Proved: frames are delivered only after the whole request (or response). Refuted: that the handshake must have succeeded."
 },
 "C53": {
  "note": "Proved for wss URIs with the default ssl argument or a context; refuted after a redirect from ws to wss and for ssl=None."
 },
 "C54": {
  "note": "Full characterisation of the components; three refutations: port 0, empty fragment, double encoding in IRIs."
 },
 "C57": {
  "note": "Order, uniqueness and availability are proved; a message in the hands of transfer_data may be lost (C57_message_in_hand says exactly when, and a witness is given)."
 },
 "C59": {
  "note": "No spurious RuntimeError: proved in general. The rest is proved for schedules in which no call overtakes a call that was woken up; refuted otherwise."
 },
 "C60": {
  "note": "Proved when asynchronous iterables and fragmented messages don't overlap another send() in the way that no_overlap excludes; refuted otherwise."
 },
 "C65": {
  "note": "Proved in full except for stability: the code may change from 1006 to the received code (refuted)."
 },
 "C67": {
  "note": "Refuted by a witness: the closing handshake stalls until the timeout."
 },
 "C68": {
  "note": "Proved for calls made after the closing started; refuted for calls that were already waiting."
 },
 "C69": {
  "note": "Proved: no connection opens, 503, close(1001). The last part (handlers have returned, no connection is open) is proved if connections are made before the closing task looks for them, and for handlers that aren't cancelled; refuted otherwise."
 },
 "C70": {
  "note": "Unregistration is proved. The TCP connection is closed or being closed unless the handler was cancelled, in which case it's refuted."
 },
 "C73": {
  "note": "Proved without path and sock; with them, redirects to another host fail (refuted). Relative references aren't followed (C73_relative_redirect_refuted)."
 },
 "C75": {
  "note": "Proved without extensions and with permessage-deflate, for executions in which send() calls don't overlap as described by no_overlap (see C60, which is refuted otherwise). With compression each piece of data given to send() is smaller than 2^56."
 },
 "C76": {
  "note": "Refuted as documented. Proved: they're closed or being closed, for connections made in time and handlers that aren't cancelled."
 },
 "C78": {
  "note": "The delay is proved if keepalive pings are flushed at once; refuted when the write buffer is full (no bound, or the keepalive task ends). The close code and the absence of false alarms are proved."
 },
 "C80": {
  "note": "Proved: once the connection is closed, tasks and calls run a bounded number of times until nothing can run (no hypothesis); a state in which the connection is lost and nothing can run has no pending call, unless the queue is full. Hypotheses: fragmented messages don't overlap, close() isn't cancelled while writing and its reason fits in a Close frame, the connection isn't lost with an unusual OSError, close_timeout is set. Each of the first four is shown necessary by a refutation."
 },
 "C81": {
  "note": "Proved when connect() raises an exception, returns, or is cancelled while it makes or closes a TCP connection. Refuted when it's cancelled during the opening handshake: the TCP connection stays open."
 },
 "C83": {
  "note": "Proved when the loop is the only receiver and legacy_recv is False. With legacy_recv=True the loop never ends normally (refuted)."
 },
 "C84": {
  "note": "asyncio.Lock is modelled without its queue: any waiting task may take it when it's free. The model is separate from the transition system of connections, where the end of write_frame is one suspension point."
 },
 "C85": {
  "note": "Same hypotheses as C41: lists given by the client aren't empty, window sizes that zlib supports, headers that can be written. C85_agreement_refuted: an empty list of subprotocols, or of extensions without compression, is refused with 400."
 },
 "C86": {
  "note": "With permessage-deflate, fragmented messages mustn't overlap (C60) and messages must be small enough for the wire format, as in C75."
 },
 "C87": {
  "note": "When the fragmented messages of the sender don't overlap (C60): otherwise C87_overlap_refuted shows that the receiver fails the connection with 1002. Without extensions, and with permessage-deflate for any zlib that behaves as documented (messages below 2^56 characters or bytes)."
 },
 "C88": {
  "note": "Without extensions, and with permessage-deflate for any zlib that behaves as documented (messages below 2^56 characters or bytes); requires that the queue of messages isn't full and that the last frame received isn't a ping: C88_ping_refuted shows that an end which receives a ping after it sent its Close frame waits for the timeout of close() (the finding of C67)."
 },
 "C89": {
  "note": "Requires legacy_recv=False, which is the default. C89_typed_lines_refuted: lines typed just before ^D aren't all sent. C89_received_messages_refuted: messages received before the close frame aren't all shown if the user types a line at this point. C89_ends_refuted: the program hangs if close() raises an exception (C89_dead says when). C89_interrupted_refuted: ^D typed while the server closes the connection may end the program with an exception. C89_display_refuted: what is shown doesn't identify the messages."
 },
 "C90": {
  "note": "Without extensions. C90_close_codes_refuted: the codes differ when a close frame comes in the middle of a fragmented message. C90_invalid_text_refuted: the sans-I/O connection doesn't fail when text isn't valid UTF-8."
 },
 "C91": {
  "note": "Without extensions. C91_ping_refuted: the condition about pings cannot be dropped; for close frames in the middle of a message, see C08."
 },
 "C92": {
  "note": "For every zlib satisfying correct_zlib, expands_little, can_compress and can_decompress (Spec/Deflate.v); C92_applies has an instance. The conditions of C91 about pings and Close frames in the middle of a message apply."
 },
 "C93": {
  "note": "The conditions on the configurations are those of C41_agreement_partial; those on what is exchanged after the handshake are those of C92 (receives_from in Spec/Endpoints.v)."
 },
 "C94": {
  "note": "C94_default_compresses is for the asyncio handshakes, under the hypotheses of C85_agreement_partial. When both sides are given a configuration, the only ones that aren't compatible are those where the server requires client_max_window_bits and the client doesn't support it: see the conclusion of C85_agreement_partial."
 },
 "C95": {
  "note": "Names are compared as ASCII, like in C28. Headers(h) lowers the names and refuses repeated headers, unlike h.copy()."
 },
 "C96": {
  "note": "Under the hypotheses of C85 (see its note) for the handshake, and of C75, C86, C87 and C88 with compression for the connection: fragmented messages don't overlap and messages are small enough for the wire format."
 },
 "C97": {
  "note": "Durations are whole numbers. read_limit, write_limit, loop, host, port and secure are not modelled, nor create_protocol. The bound on close() is that of C66."
 },
 "C98": {
  "note": "Composition of C94 and C96 with the default values, whose hypotheses about the handshake are discharged: what remains is about zlib, the URI (Spec/Requestable.v) and the User-Agent, Server and Date headers. As in C96, fragmented messages must not overlap (C60) and messages are small enough for the wire format. C98_visible_uri and C98_connect_uri start from the text of the URI: visible ASCII characters, at most 2990, accepted by parse_uri. C98_iri: so can any IRI of at most 240 characters, once its host is encoded to visible ASCII characters."
 },
 "C99": {
  "note": "C99_lazy_import and C99_unknown_name hold for any program; the others are about the files of websockets, whose tables are generated from the source (Model/ImportTables.v). dir() lists every alias and every name bound before lazy_import() is called (C99_dir_partial), but not the names defined afterwards (C99_dir_refuted). Modules are executed at once; imports made by a module are separate operations."
 },
 "C100": {
  "note": "The parts about extra_headers and about percent-encoding are false: C100_extra_headers_refuted, C100_any_credentials_refuted. The rest is proved, for arguments extra_headers that don't include Authorization or Host. Iterators given as extra_headers aren't modelled."
 },
 "C101": {
  "note": "For requests that can be written, as in C85, and extra_headers without Authorization. With the credentials of a user, the rest of the handshake is that of C71 and C85. With Authorization in extra_headers too, the response is 500 (C101_two_headers_refuted)."
 },
 "C102": {
  "note": "loop.create_server() and loop.create_unix_server() are modelled from asyncio, up to the system calls. The path of serve() without unix is ignored (C102_path_refuted); with a wss URI and ssl=None, secure is True without TLS (C102_secure_refuted)."
 },
 "C103": {
  "note": "Proved for read_limit >= 8218 (the default is 65536), and for streams that end or whose rest isn't needed. Smaller values refuse long lines (C103_small_limit_refuted)."
 },
 "C104": {
  "note": "asyncio.StreamReader is modelled from Python 3.12, without EOF and exceptions; the size of reads and of pieces of data is arbitrary."
 },
 "C105": {
  "note": "Each call of send() that is cancelled while it waits adds at most a frame to the bound (C105_bounded_with_cancellations), so that the bound is false if they are cancelled (C105_cancelled_refuted); the other theorems allow cancellation. Errors and the end of the connection are those of C84."
 },
 "C106": {
  "note": "The second sentence, from the documentation, is false during the handshakes (C106_addresses) and over TCP after the connection is lost (C106_not_open_refuted)."
 }
}