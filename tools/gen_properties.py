import json
P=[]
def p(title, statement, quantifier, why, anchors):
    P.append(dict(id="C%02d"%(len(P)+1), title=title, statement=statement, quantifier=quantifier, why_tests_cant=why, anchors=anchors))
F="src/websockets/"
# ---- framing
p("Frame codec round trip",
 "Parsing the bytes produced by serializing a valid frame, on the opposite side, yields the same frame (FIN, opcode, payload, reserved bits) and consumes exactly those bytes, leaving whatever follows them untouched.",
 "every frame that passes check(), every payload length below 2^64, masked and unmasked, every masking key, every trailing byte string",
 "payloads and trailing data are unbounded and three length encodings meet at boundaries; tests sample a few sizes",
 [F+"frames.py: Frame.parse, Frame.serialize, Frame.check"])
p("Wire format conforms to RFC 6455 section 5.2",
 "The bytes written for a frame are exactly the RFC 6455 layout: flag and opcode byte, mask bit and shortest of the three length encodings in network byte order, the masking key when masking, then the (masked) payload.",
 "every frame, every payload length, both sides, every masking key",
 "needs bit-level agreement for all 2^64 lengths and all payloads",
 [F+"frames.py: Frame.serialize"])
p("Masking is a positional XOR and an involution",
 "Masking preserves length, XORs byte i with key byte i mod 4, applying it twice restores the data, and a key that isn't 4 bytes long is rejected.",
 "every byte string, every key",
 "unbounded data",
 [F+"utils.py: apply_mask"])
p("Accelerated masking equals the pure Python one",
 "The C extension's masking (16-byte SSE2 blocks or 8-byte blocks plus a byte tail) returns exactly what the pure Python function returns, including the error on a bad key, so that which one is imported can't be observed.",
 "every byte string of every length, every 4-byte key, both block sizes, both byte orders",
 "equivalence over all lengths modulo the block size and all contents",
 [F+"speedups.c: apply_mask", F+"utils.py: apply_mask"])
p("Frame acceptance is exact",
 "A complete frame on the wire is accepted if and only if its opcode is known, its mask bit matches the side, its reserved bits are clear, its length is within the limit, and, for control frames, it is final and at most 125 bytes; otherwise the documented error (protocol error or payload too big) is raised; an oversize length is rejected before the payload is awaited.",
 "every byte string, both sides, every size limit",
 "the input space is all byte strings",
 [F+"frames.py: Frame.parse, Frame.check"])
p("Close payload codec",
 "A close payload built from a code and reason parses back to the same code and reason; building succeeds exactly for the codes allowed on the wire; parsing accepts exactly the empty payload (code 1005), or a two-byte allowed code followed by valid UTF-8; 1005, 1006 and 1015 never appear on the wire.",
 "every integer code, every reason, every payload",
 "unbounded strings and integers",
 [F+"frames.py: parse_close, serialize_close, check_close, EXTERNAL_CLOSE_CODES"])
# ---- sans-IO connection
p("Delivery does not depend on how TCP splits the stream",
 "Feeding the same byte stream to a connection in any partition into receive_data calls yields the same events, the same bytes to send, the same connection state and the same failure.",
 "every byte stream, every partition (including empty chunks), both sides, any state, client, server and bare connections",
 "the number of partitions is exponential in the stream length",
 [F+"connection.py: Connection.receive_data, Connection.parse", F+"streams.py: StreamReader", F+"frames.py: Frame.parse"])
p("End-to-end ordered delivery of frames",
 "Every frame one side successfully sends is delivered by the other side as an event, once, in order, with the same FIN, opcode and payload, and nothing else is delivered.",
 "every sequence of send calls, every partition of the stream, both directions, every masking key",
 "quantifies over all histories of sends and all transports",
 [F+"connection.py: send_text, send_binary, send_continuation, send_ping, send_pong, send_close, receive_data, events_received"])
p("Incoming message size limit",
 "With max_size set and no compression, the fragments delivered for one message never total more than max_size bytes; the first frame that would exceed the limit fails the connection with close code 1009.",
 "every byte stream, every chunking, every history, every limit",
 "unbounded fragment sequences",
 [F+"connection.py: Connection.parse (cur_size, max_size)", F+"frames.py: Frame.parse"])
p("Delivered data frames are well-formed messages",
 "Over the whole life of a connection the data frames delivered form a sequence of messages: text or binary first, continuations until FIN, no other data frame interleaved.",
 "every byte stream, chunking and interleaving with sends",
 "unbounded histories",
 [F+"connection.py: Connection.parse"])
p("Sent data frames are well-formed messages",
 "Whatever sequence of send calls an application makes while the connection is open, the data frames written on the wire form well-formed messages; calls which would break this raise a protocol error.",
 "every sequence of API calls and received bytes on an open connection",
 "unbounded histories",
 [F+"connection.py: send_continuation, send_text, send_binary, send_close"])
p("At most one close frame, and nothing after it",
 "Over the whole life of a connection at most one close frame is written, and after it only the end-of-stream marker may be written.",
 "every sequence of API calls, received bytes and failures",
 "unbounded histories; several code paths write close frames",
 [F+"connection.py: send_close, fail_connection, parse, send_frame"])
p("End of stream is signalled at most once and last",
 "The end-of-stream marker is written at most once and nothing is written after it; a server writes it right after the close frame; a client that closes normally writes it only after receiving the peer's end of stream.",
 "every sequence of API calls, received bytes and failures on an open connection",
 "unbounded histories",
 [F+"connection.py: send_eof, fail_connection, parse, data_to_send"])
p("Every ping is answered",
 "On an open connection every ping received before the close frame is answered, in order, by one pong with the same payload; pongs are never generated otherwise.",
 "every byte stream, chunking and payload",
 "unbounded histories",
 [F+"connection.py: Connection.parse (OP_PING branch)"])
p("A ping in flight during closing is harmless",
 "When the application has sent a close frame, a ping which the peer sent before seeing it doesn't fail the connection: the peer's close frame is still received and its code recorded.",
 "every connection in the closing state, every ping",
 "the ping races with the close frame",
 [F+"connection.py: Connection.parse (OP_PING branch), send_frame"])
p("Closing handshake echoes the peer's close",
 "When an open connection receives a valid close frame, it records its code and reason, replies with a close frame with the identical payload, becomes closing, and delivers the frame; if it was already closing it doesn't reply.",
 "every valid close payload, both sides, any chunking",
 "unbounded payloads and histories",
 [F+"connection.py: Connection.parse (OP_CLOSE branch)"])
p("Failure close codes",
 "When received data is unacceptable, an open connection writes one close frame whose code is 1002 for protocol errors, 1007 for invalid UTF-8 in a close reason, 1009 for oversize payloads, 1011 for other errors, and writes none when the stream just ends; then it writes the end-of-stream marker; the error is raised to the caller.",
 "every byte stream, every chunking",
 "the set of bad streams is infinite",
 [F+"connection.py: step_parser, fail_connection"])
p("Errors are sticky",
 "After an error while receiving, further receive calls raise and never deliver events nor write bytes.",
 "every erroneous history and every later call sequence",
 "unbounded histories",
 [F+"connection.py: step_parser"])
p("No data is delivered after a close frame",
 "Once a close frame has been delivered, no text, binary or continuation frame is ever delivered.",
 "every byte stream and history",
 "unbounded histories",
 [F+"connection.py: Connection.parse"])
p("Connection state only moves forward",
 "The state only moves along CONNECTING, OPEN, CLOSING, CLOSED, whatever calls are made in whatever order.",
 "every sequence of API calls other than sending a second handshake response",
 "unbounded histories",
 [F+"connection.py: set_state, send_close, fail_connection, parse", F+"server.py: send_response", F+"client.py: parse"])
p("Clients mask, servers don't, keys are fresh",
 "Every frame a client writes is masked with the next 4 bytes of entropy, never reusing a draw; every frame a server writes is unmasked; a peer with the wrong masking is refused.",
 "every history",
 "unbounded histories",
 [F+"connection.py: send_frame, parse", F+"frames.py: serialize, parse"])
p("A send that raises has no effect",
 "When a send method raises, the connection is unchanged: nothing is written and later calls behave as though it had not been made.",
 "every send call in every state",
 "unbounded histories and arguments",
 [F+"connection.py: send_text, send_binary, send_continuation, send_close, send_frame"])
p("A close code is available once the connection has ended",
 "After the end of the stream is received, the close code is set: the received one if a close frame was received, else 1006.",
 "every history ending with receive_eof",
 "unbounded histories",
 [F+"connection.py: close_code, parse, receive_eof"])
# ---- HTTP
p("HTTP request round trip",
 "Serializing a handshake request and parsing the bytes gives back the same path and the same list of headers.",
 "every path without spaces or line breaks, every list of at most 256 valid headers within the line limit, every chunking",
 "unbounded strings",
 [F+"http11.py: Request.parse, Request.serialize, parse_headers", F+"datastructures.py: Headers.serialize"])
p("HTTP response round trip",
 "Serializing a handshake response and parsing the bytes gives back the same status, reason, headers and body.",
 "every valid response with a Content-Length or no body",
 "unbounded strings",
 [F+"http11.py: Response.parse, Response.serialize"])
p("HTTP limits",
 "A message is accepted only if each line is at most 4110 bytes with its CRLF and there are at most 256 headers; exactly 256 headers are accepted and 257 rejected with a security error.",
 "every byte stream",
 "boundary over unbounded streams",
 [F+"http11.py: parse_line, parse_headers, MAX_HEADERS, MAX_LINE"])
p("Line reader returns exactly the lines",
 "Reading lines from a stream returns the stream cut after each LF, independently of how data arrived and without losing or duplicating a byte; reading n bytes returns exactly the next n bytes.",
 "every stream and chunking",
 "the incremental search position must be right for all chunkings",
 [F+"streams.py: read_line, read_exact, read_to_eof, at_eof"])
p("Headers behaves like a case-insensitive multimap",
 "A Headers object observed through item access, membership, get_all, len, iteration, raw_items, deletion and clear behaves like the list of (name, value) pairs set so far, matched case-insensitively on names.",
 "every sequence of mutations and every query",
 "two redundant internal structures must stay consistent over all histories",
 [F+"datastructures.py: Headers"])
p("Headers.copy is independent",
 "Mutating a copy of a Headers object doesn't change the original.",
 "every object and mutation",
 "aliasing",
 [F+"datastructures.py: Headers.copy"])
p("Serialized headers can't be used for header injection",
 "The bytes produced by serializing a message parse back to the same headers, whatever values were set.",
 "every header name and value accepted by Headers",
 "all strings",
 [F+"datastructures.py: Headers.__setitem__, Headers.serialize"])
# ---- header grammar
p("Extension header round trip",
 "Parsing the Sec-WebSocket-Extensions header built from a list of extensions gives back the list.",
 "every non-empty list of extensions whose names, parameter names and values are tokens",
 "unbounded lists and strings",
 [F+"headers.py: build_extension, parse_extension"])
p("Subprotocol header round trip",
 "Parsing the Sec-WebSocket-Protocol header built from a list of subprotocols gives back the list.",
 "every non-empty list of tokens",
 "unbounded",
 [F+"headers.py: build_subprotocol, parse_subprotocol"])
p("Quoted string round trip",
 "Parsing a quoted string built from a value gives back the value, and building succeeds exactly for quotable values.",
 "every string",
 "unbounded",
 [F+"headers.py: build_quoted_string, parse_quoted_string"])
p("List headers are parsed per the RFC 7230 grammar",
 "A Connection, Upgrade or Sec-WebSocket-Protocol header is accepted exactly when it is a comma separated list with optional whitespace and empty elements per the 1#item grammar, and the items returned are exactly the elements in order; parsing always terminates.",
 "every header value",
 "infinite language",
 [F+"headers.py: parse_list, parse_OWS, parse_token, parse_connection, parse_upgrade, parse_subprotocol"])
p("Basic Auth header round trip",
 "Parsing the Authorization header built from a username without colon and a password gives back both.",
 "every pair of encodable strings",
 "unbounded; includes UTF-8 and base64",
 [F+"headers.py: build_authorization_basic, parse_authorization_basic"])
p("Malformed credentials are answered with 401",
 "A request whose Authorization header isn't valid Basic credentials is answered with HTTP 401.",
 "every Authorization header",
 "infinite input space",
 [F+"legacy/auth.py: process_request", F+"headers.py: parse_authorization_basic"])
p("Basic Auth grants access exactly to configured credentials",
 "With hard coded credentials, a request passes authentication if and only if its decoded username and password are a configured pair (the last one given for that username).",
 "every list of credentials and every request",
 "infinite input space",
 [F+"legacy/auth.py: basic_auth_protocol_factory, is_credentials, process_request"])
# ---- handshake
p("Server accepts exactly the valid handshake requests",
 "The response to a request is a 101 with the right Sec-WebSocket-Accept if and only if Connection contains upgrade, Upgrade is websocket, there's one key that is base64 of 16 bytes, one version equal to 13, the origin is allowed and the list headers parse; the connection opens only when a 101 is sent.",
 "every set of request headers and every server configuration",
 "infinite input space",
 [F+"server.py: accept, process_request, send_response"])
p("Server rejection statuses",
 "Requests that aren't accepted get 403 for a bad origin, 426 with Upgrade: websocket for a bad Connection or Upgrade header, 400 for other malformed handshakes; rejections carry Content-Length equal to the body and Connection: close, and leave the connection unopened.",
 "every request",
 "infinite input space",
 [F+"server.py: accept, reject"])
p("Client opens only on a valid handshake response",
 "A client connection becomes open if and only if the response has status 101, an upgrade to websocket, the Sec-WebSocket-Accept matching its key, only extensions and a subprotocol it offered.",
 "every response",
 "infinite input space",
 [F+"client.py: process_response, process_extensions, process_subprotocol, parse"])
p("Client and server agree after the handshake",
 "When a client's request is delivered to a server and its response is delivered back, both sides open, with the same subprotocol and mirrored extension parameters.",
 "every client and server configuration, every key, every chunking",
 "product of all configurations",
 [F+"client.py: ClientConnection", F+"server.py: ServerConnection"])
p("Accept key computation",
 "Sec-WebSocket-Accept is base64(SHA-1(key + GUID)); keys generated by the client are always accepted by the server.",
 "every key, every 16 random bytes",
 "infinite input space",
 [F+"utils.py: accept_key, generate_key"])
p("Subprotocol selection",
 "The selected subprotocol is one offered by the client and supported by the server, minimizing the sum of the positions in both lists; none is selected exactly when there's no common one.",
 "every pair of lists, every set iteration order",
 "depends on hash ordering of sets",
 [F+"server.py: select_subprotocol, process_subprotocol"])
p("Origin policy",
 "With an origins list, a connection opens only if its single Origin header (or its absence) is in the list.",
 "every request and list",
 "infinite input space",
 [F+"server.py: process_origin"])
# ---- permessage-deflate
p("Compression parameters agree",
 "Whenever a server accepts a client's compression offer and the client accepts the server's answer, each side's decoder settings equal the other side's encoder settings.",
 "all factory configurations on both sides",
 "product of configurations",
 [F+"extensions/permessage_deflate.py: process_request_params, process_response_params"])
p("Compression negotiation honours both configurations",
 "Negotiated window sizes never exceed what either side configured, requested no-context-takeover is honoured, and an answer to a library client from a library server is always accepted.",
 "all factory configurations on both sides",
 "product of configurations",
 [F+"extensions/permessage_deflate.py"])
p("Compression parameters are validated",
 "Unknown, duplicate, valueless or out-of-range parameters are refused; a second permessage-deflate is refused.",
 "every parameter list",
 "infinite input space",
 [F+"extensions/permessage_deflate.py: _extract_parameters"])
p("Compressed messages round trip",
 "With matching settings and a correct zlib, the peer's decoder returns exactly the frames given to the encoder, for every sequence of fragmented messages with interleaved control frames, with or without context takeover.",
 "every legal frame sequence, every setting",
 "unbounded stateful histories",
 [F+"extensions/permessage_deflate.py: encode, decode"])
p("Compression bits",
 "Control frames are never compressed, RSV1 is set exactly on the first frame of a message, and uncompressed messages pass through the decoder unchanged.",
 "every frame sequence",
 "unbounded histories",
 [F+"extensions/permessage_deflate.py: encode, decode"])
p("Decompressed size limit",
 "With compression, the decompressed fragments of a message never total more than max_size.",
 "every compressed stream",
 "zip bombs are adversarial",
 [F+"extensions/permessage_deflate.py: decode", F+"connection.py: parse"])
p("No frame is delivered before the handshake succeeds",
 "Frame events are delivered only on a connection whose opening handshake succeeded.",
 "every byte stream, client and server",
 "timing of handshake and data",
 [F+"server.py: parse", F+"client.py: parse"])
# ---- URI and redirects
p("Redirects never downgrade and are bounded",
 "Connecting follows at most 10 handshakes, and never goes from a wss URI to a ws URI.",
 "every sequence of server answers",
 "unbounded adversarial redirect chains",
 [F+"legacy/client.py: handle_redirect, __await_impl__"])
p("A wss URI is always reached over TLS",
 "Every connection attempt made for a wss URI, including after redirects, uses TLS.",
 "every sequence of redirects",
 "adversarial redirect chains",
 [F+"legacy/client.py: Connect.__init__, handle_redirect"])
p("URI parsing",
 "A ws or wss URI is split into secure flag, host, port (with defaults 80 and 443), resource name (default /, with query) and user info; URIs with another scheme, a fragment, or a user without password are refused.",
 "every URI built from RFC 3986 components",
 "infinite input space",
 [F+"uri.py: parse_uri", F+"http.py: build_host"])
# ---- legacy
p("Text reassembly doesn't depend on fragmentation",
 "Decoding a text message fragment by fragment gives the same text as decoding the whole, and fails exactly when the whole isn't valid UTF-8.",
 "every byte string and every partition",
 "exponentially many partitions",
 [F+"legacy/protocol.py: read_message"])
p("Received messages are the concatenated fragments",
 "recv() returns, for each message, the concatenation of its fragments with the type of its first frame, within the size limit, control frames in between being handled apart.",
 "every frame sequence",
 "unbounded sequences",
 [F+"legacy/protocol.py: read_message, read_data_frame"])
p("recv loses, duplicates or reorders nothing",
 "Messages are returned by recv() calls in the order received, each once, whatever the schedule and whichever recv() calls are cancelled.",
 "every interleaving of the reader task, recv calls and cancellations",
 "all schedules",
 [F+"legacy/protocol.py: recv, transfer_data"])
p("The receive queue is bounded",
 "At most max_queue messages wait in the queue.",
 "every schedule",
 "all schedules",
 [F+"legacy/protocol.py: transfer_data"])
p("Concurrent recv calls are detected",
 "If a coroutine is waiting in recv(), another call to recv() raises RuntimeError; a waiting recv() is woken when a message is available.",
 "every schedule of several coroutines",
 "all schedules",
 [F+"legacy/protocol.py: recv"])
p("Fragmented sends aren't interleaved",
 "While a message is sent in fragments, no frame of another message is written between its fragments, however many coroutines send concurrently.",
 "every schedule of concurrent sends of strings, iterables and asynchronous iterables",
 "all schedules",
 [F+"legacy/protocol.py: send"])
p("At most one close frame (asyncio API)",
 "However close(), failures, the peer's close frame and keepalive race, at most one close frame is written and no frame after it.",
 "every schedule",
 "all schedules",
 [F+"legacy/protocol.py: write_close_frame, fail_connection, write_frame"])
p("State order (asyncio API)",
 "The connection state only moves forward and ends CLOSED when the TCP connection is lost.",
 "every schedule",
 "all schedules",
 [F+"legacy/protocol.py: state"])
p("Pong matching",
 "A pong completes the matching ping and all earlier ones and nothing else; an unknown pong changes nothing; two pending pings never share a payload.",
 "every history of pings and pongs",
 "unbounded histories",
 [F+"legacy/protocol.py: ping, read_data_frame"])
p("Pending pings fail when the connection is lost",
 "When the connection is lost every pending ping completes with ConnectionClosed.",
 "every history",
 "unbounded histories",
 [F+"legacy/protocol.py: abort_pings, connection_lost"])
p("Close code and exception class",
 "After the connection is lost the close code is the one received in a valid close frame, else 1006; interacting raises ConnectionClosedOK exactly for 1000 and 1001, else ConnectionClosedError.",
 "every history",
 "unbounded histories",
 [F+"legacy/protocol.py: connection_closed_exc, connection_lost", F+"exceptions.py: ConnectionClosedOK, ConnectionClosedError"])
p("close() terminates in bounded time",
 "close() completes within 4 (server) or 5 (client) times close_timeout plus the time the transport takes to report an abort.",
 "every behaviour of the peer and the transport",
 "adversarial peers",
 [F+"legacy/protocol.py: close, close_connection, wait_for_connection_lost"])
p("A ping in flight during close() is harmless (asyncio API)",
 "A ping received after close() was called doesn't prevent the closing handshake from completing before the timeout.",
 "every schedule",
 "race between ping and close",
 [F+"legacy/protocol.py: read_data_frame, pong, ensure_open, close_connection"])
p("Sending on a closing connection raises ConnectionClosed",
 "A send() that can't be performed because the connection is closing or closed raises ConnectionClosed.",
 "every schedule",
 "race between send and close",
 [F+"legacy/protocol.py: send, ensure_open, write_frame"])
p("Server shutdown",
 "After the server is closed no connection opens, open connections are closed with code 1001, handshakes in progress get 503, and wait_closed() returns only after all handlers have returned.",
 "every schedule of connections and handlers",
 "all schedules",
 [F+"legacy/server.py: WebSocketServer._close, handshake, handler"])
p("Connections are never leaked by a handler",
 "Whatever the handshake or the handler does, when the handler task ends the connection is unregistered and its TCP connection is closed or being closed.",
 "every outcome of handshake, handler and close",
 "all exception paths",
 [F+"legacy/server.py: handler"])
p("The two servers answer alike",
 "Given the same configuration and the same request, the asyncio server and the Sans-I/O server give responses with the same status; responses with status 101 have the same headers, and the connections have the same origin, extensions and subprotocol. A connection opens if and only if the request is valid.",
 "every request and configuration",
 "infinite input space; two implementations",
 [F+"legacy/handshake.py: check_request, build_response", F+"legacy/server.py: handshake, handler", F+"server.py: accept"])
p("The two clients decide alike",
 "Given the same configuration and the same response, the asyncio client opens the connection if and only if the Sans-I/O client does, with the same extensions and subprotocol, that is, if and only if the response is valid.",
 "every response and configuration",
 "infinite input space; two implementations",
 [F+"legacy/handshake.py: check_response", F+"legacy/client.py: handshake", F+"client.py: process_response"])
p("Redirects lead to the server they name",
 "After a redirect to another host or port, the client connects to that host and port; after a redirect to the same host and port, it connects to the same peer as before.",
 "every sequence of redirects, every way of giving the address of the server",
 "adversarial redirect chains",
 [F+"legacy/client.py: Connect.__init__, handle_redirect"])
p("send() writes the message that it is given (asyncio API)",
 "A call to send() writes the frames of its message in order: a single text or binary frame with the data, or one frame for each item of the iterable, the type being that of the items, then an empty last frame. If it returns, all frames were written. If it is cancelled or raises an exception, only the first frames of the message were written.",
 "every message, iterable and schedule of tasks, other calls, network events and cancellations",
 "all schedules, all iterables",
 [F+"legacy/protocol.py: send, write_frame", F+"frames.py: prepare_data"])
p("Messages go from send() to recv() unchanged (asyncio API)",
 "The messages that recv() returns on one end of a connection are those given to send() on the other end, unchanged, in the order in which they were written, without loss in the middle, duplication or mix-up, whatever the extensions in use.",
 "every pair of executions of the two ends with a transport delivering bytes in order, split in any way",
 "all schedules on both ends, all messages, all ways of splitting bytes",
 [F+"legacy/protocol.py: send, recv, read_message, write_frame", F+"legacy/framing.py: Frame.read, Frame.write", F+"extensions/permessage_deflate.py: encode, decode"])
p("wait_closed() waits for TCP connections",
 "When WebSocketServer.wait_closed() returns, all TCP connections are closed.",
 "every schedule of connections, handshakes and handlers",
 "all schedules",
 [F+"legacy/server.py: WebSocketServer._close, wait_closed, handler"])
p("Server connections behave like connections",
 "Whatever handlers and the shutdown of the server do, each connection of a server behaves like a connection on its own: its guarantees (one close frame, bounded queue, states, messages, timeouts) hold.",
 "every schedule of connections, handshakes, handlers and shutdown",
 "all schedules",
 [F+"legacy/server.py: handler, WebSocketServer", F+"legacy/protocol.py"])
p("Keepalive pings detect dead peers (asyncio API)",
 "With ping_interval and ping_timeout set, if no pong is received for longer than ping_interval + ping_timeout, the connection stops being usable, and it is failed with code 1011. It isn't failed unless a keepalive ping was sent at least ping_timeout earlier and no matching pong was received in less than ping_timeout.",
 "every schedule of tasks, calls, network events and passage of time",
 "all schedules, unbounded histories of pings",
 [F+"legacy/protocol.py: keepalive_ping, ping, fail_connection"])
p("Pings are answered (asyncio API)",
 "The library answers the pings that it reads with pongs carrying the same payloads, in the same order, once each. While the connection is usable, all the pings read so far are answered. When the connection is closing at most one ping isn't answered, and nothing is read after it.",
 "every stream of frames, schedule of tasks, other calls (including pong()), network events and cancellations",
 "all schedules, all streams",
 [F+"legacy/protocol.py: read_data_frame, transfer_data, pong, write_frame"])
p("No call waits forever once the connection is lost (asyncio API)",
 "When the TCP connection is lost, recv(), send(), ping(), pong(), close() and wait_closed() calls all complete: they return or raise an exception, provided that the application calls recv() when the queue of incoming messages is full.",
 "every history of calls, data received, cancellations and schedule of tasks",
 "deadlocks between tasks depend on the schedule; all schedules",
 [F+"legacy/protocol.py: recv, send, close, ping, pong, wait_closed, transfer_data, close_connection, keepalive_ping, connection_lost, ensure_open"])
p("connect() doesn't leak TCP connections (asyncio API)",
 "If connect() raises an exception, including because it's cancelled or because the handshake fails, every TCP connection that it made is closed or being closed. When it follows redirects, at most one TCP connection is open at a time and at most ten are made. If it returns, the connection that it returns is open. When the block of async with connect() is left, the connection is closed. It doesn't wait forever to close a TCP connection.",
 "every sequence of responses, redirects, network errors, cancellations and schedule of tasks",
 "all schedules; a leaked connection isn't visible from the API",
 [F+"legacy/client.py: Connect.__await_impl__, __aexit__, handshake, handle_redirect", F+"legacy/protocol.py: fail_connection, close_connection, wait_closed"])
p("Client connections behave like connections, redirects follow the rules",
 "Every TCP connection made by connect() behaves like a connection on its own, so that its guarantees hold. Whatever is received and whenever it's received, the sequence of attempts of connect() is one that the redirection rules allow: at most ten, never from wss to ws.",
 "every sequence of responses, redirects, network errors, cancellations and schedule of tasks",
 "all schedules",
 [F+"legacy/client.py: Connect.__await_impl__, handle_redirect"])
p("async for yields every message and ends when the connection is closed (asyncio API)",
 "Iterating on a connection with \"async for\" yields the messages received, in order and once each. The loop ends normally only after a close frame with code 1000 or 1001 was received, and then every message received before this frame was yielded. Otherwise it raises ConnectionClosedError with the code with which the connection was closed, after yielding the messages in the queue. Once the connection is closed and all messages were yielded, the loop ends rather than wait.",
 "every stream of frames, schedule of tasks, other calls, network events and cancellations",
 "all schedules, all streams; messages lost between the queue and the end of the loop need a particular schedule",
 [F+"legacy/protocol.py: __aiter__, recv, ensure_open, connection_closed_exc, transfer_data"])
p("Writing frames is subject to backpressure and never blocks longer than necessary (asyncio API)",
 "While the write buffer is full, a task cannot write more than one frame: send() and the other calls wait after writing it. Once the buffer drains or the connection is lost, none of the tasks that wait after writing a frame waits any longer, regardless of how many there are, how they're scheduled and which ones are cancelled. Writing a frame raises an exception only if the task is cancelled or the connection is lost; then it's the exception that broke the connection or ConnectionResetError; it's never AssertionError.",
 "every number of tasks, every order of writes, cancellations, calls to pause_writing, resume_writing and connection_lost, and schedule of tasks",
 "all schedules; lost wakeups and failing assertions in flow control depend on concurrent writers and cancellations at particular points",
 [F+"legacy/protocol.py: write_frame, _drain, _drain_helper, pause_writing, resume_writing, connection_lost"])
p("Client and server agree after the handshake (asyncio API)",
 "When a client and a server of this library, both using the asyncio API, perform the opening handshake with compatible configurations, the connection is open on both sides, regardless of what follows the handshake in the stream. They agree on the subprotocol, which both support, or on none if they have none in common, and on the parameters of compression. The server sees the origin that the client sent.",
 "every configuration of extensions, subprotocols, origins, headers and URI of the client and of the server",
 "all pairs of configurations",
 [F+"legacy/client.py: handshake, read_http_response, process_extensions, process_subprotocol", F+"legacy/server.py: handshake, read_http_request, process_extensions, process_subprotocol", F+"legacy/handshake.py: build_request, check_request, build_response, check_response", F+"legacy/http.py: read_request, read_response"])
p("Close codes and reasons go from end to end (asyncio API)",
 "With the asyncio API, every close frame sent comes from a call to close() and carries its code and its reason, or repeats the close frame received, or announces a failure, with code 1002, 1007, 1009, 1011 or the code given by the server when it shuts down, and no reason. Therefore, when a client and a server of this library are connected, however their steps interleave, the close code and reason seen at one end are those given to close() at either end, or a failure code of either end, or 1006 if no close frame was received. Both ends report the same code and reason, unless one of them receives no close frame, or both choose a code before receiving that of the other one.",
 "every interleaving of the steps of both ends, calls, failures, cancellations, fragmentation of the data received, and loss of the connection at any point, without extensions or with compression",
 "all interleavings of two endpoints; crossing close frames depend on timing",
 [F+"legacy/protocol.py: close, write_close_frame, read_data_frame, fail_connection, transfer_data, close_code, close_reason, connection_lost"])
p("Two endpoints of this library don't fail each other with a protocol error (asyncio API)",
 "When a client and a server of this library are connected, however their steps interleave and their calls are scheduled, no end fails the connection because of what the other one sends: the close code is never 1002 or 1007 unless the application or the server chose it. An end fails the connection only with code 1011 because its own keepalive timed out or one of its own calls to send() raised an exception, or with code 1009 because it received more than its max_size, or because it was told to.",
 "every interleaving of the steps of both ends, calls, messages, fragmentation, pings, failures, cancellations, and loss of the connection at any point, provided that fragmented messages don't overlap (C60)",
 "all interleavings of two endpoints and all messages; a frame that the parser of the other end rejects may need a particular schedule of calls",
 [F+"legacy/protocol.py: send, ping, pong, close, read_message, read_data_frame, write_frame, fail_connection, transfer_data", F+"legacy/framing.py: Frame.read, Frame.write", F+"frames.py: Frame.check, parse_close, serialize_close"])
p("The closing handshake between two endpoints of this library completes (asyncio API)",
 "When a client and a server of this library are connected and either of them sends a Close frame, for example because the application calls close(), the closing handshake completes without waiting for a timeout: once all data has been delivered and both ends have read what they can read, each end has sent a Close frame, has received the one of the other end, with its code and reason, and proceeds to close the TCP connection. Failures, the loss of the connection, timeouts, exceptions in send(), the cancellation of close(), and an application which doesn't read messages can prevent this.",
 "every interleaving of the steps of both ends, calls, cancellations of other calls, messages, fragmentation of the data received",
 "all interleavings of two endpoints; a closing handshake which gets stuck until a timeout depends on timing",
 [F+"legacy/protocol.py: close, transfer_data, read_message, read_data_frame, write_close_frame, ensure_open, pong"])
p("The interactive client shows every message, sends every line and says why the connection ended",
 "python -m websockets <uri> shows the messages received, in order and each one once; when the server closes the connection, it shows all messages received before the close frame. It sends the lines typed, in order and each one at most once, each one as a text message, and nothing else. When it ends, it displays the close code and reason of the server's close frame, or 1006 if there was none; different codes and reasons are displayed differently. It closes the connection without being asked by the server only if the user typed ^C or ^D, or an error happened. Once it knows that the user typed ^C or ^D, it stops waiting for messages and for input, and sends at most one more line. Once the connection is closed, it ends without waiting for the user.",
 "every interleaving of the two threads, of the user's input and of the steps of the connection, messages, fragmentation of the data received, and loss of the connection at any point",
 "all schedules of two threads and an event loop; lost or duplicated messages depend on which of three tasks completes first",
 [F+"__main__.py: main, run_client, exit_from_event_loop_thread, print_during_input, print_over_input", F+"exceptions.py: format_close", F+"legacy/protocol.py: recv, send, close"])
p("The two implementations of the protocol process received data in the same way",
 "Given the same data, cut in any way, the asyncio connection (legacy) and the sans-I/O connection process the same frames, in the same order, until one of them stops. Hence recv() returns the messages carried by the frames that the sans-I/O connection reports. When the asyncio connection fails because of what it received, the sans-I/O connection fails with the same code, except for text messages which aren't valid UTF-8, since it doesn't decode them. When the asyncio connection has processed all the data without failing, so has the sans-I/O connection.",
 "every sequence of bytes received, cut in any two ways, both sides, every size limit, and every schedule of the asyncio connection, with failures, cancellations and loss of the connection at any point, without extensions",
 "all sequences of bytes and all schedules; two parsers written separately may differ on rare inputs",
 [F+"connection.py: receive_data, step_parser, parse, fail_connection", F+"legacy/protocol.py: transfer_data, read_message, read_data_frame, read_frame, fail_connection", F+"legacy/framing.py: Frame.read", F+"frames.py: Frame.parse, Frame.check, parse_close"])
p("Two sans-I/O endpoints don't fail each other, and the closing handshake between them completes",
 "When each of two sans-I/O connections receives what the other one writes, in any chunks and mixed with any calls, receive_data() never raises an exception and the frames sent by one end are exactly those reported by the other, in order; the data frames reported are those given to send_text(), send_binary() and send_continuation(). Once either end has sent a Close frame and everything was received, both ends have sent one and received one, are closing, have the code and the reason of the other end's Close frame, and accept the end of the stream. When only one end called send_close(), both ends have its code and reason. This requires that an end which has sent a Close frame receives no ping afterwards, that messages fit in the limit of the other end, and that close frames aren't sent in the middle of a message.",
 "every sequence of calls on both ends, data, codes, reasons, fragmentation, pings, and every way to cut the bytes exchanged, without extensions",
 "all pairs of histories; a frame that the parser of the other end rejects may need a particular sequence of calls at both ends",
 [F+"connection.py: receive_data, receive_eof, send_continuation, send_text, send_binary, send_close, send_ping, send_pong, data_to_send, events_received, parse, step_parser, send_frame, send_eof", F+"frames.py: Frame.parse, Frame.serialize, Frame.check, parse_close, serialize_close"])
p("With compression, two sans-I/O endpoints don't fail each other, and the closing handshake between them completes",
 "What C91 says also holds when both ends use permessage-deflate with the same settings, with or without context takeover: receive_data() never raises an exception, the frames reported by one end are those given to the other one before they were compressed, in order, and the closing handshake completes with the codes and reasons sent. This requires, besides what C91 requires, that zlib restores what it compressed and doesn't expand it too much.",
 "every sequence of calls on both ends, data, codes, reasons, fragmentation, pings, every way to cut the bytes exchanged, every settings of the extension, and every zlib which does what it documents",
 "the state of the compressor of one end and of the decompressor of the other must agree after any history of messages and control frames",
 [F+"connection.py: receive_data, receive_eof, send_continuation, send_text, send_binary, send_close, send_ping, send_pong, data_to_send, events_received, parse, step_parser, send_frame, send_eof", F+"frames.py: Frame.parse, Frame.serialize, Frame.check, parse_close, serialize_close", F+"extensions/permessage_deflate.py: PerMessageDeflate, encode, decode"])
p("A client and a server of this library understand each other from the opening handshake to the closing handshake (sans-I/O)",
 "When a ServerConnection is given what a ClientConnection writes and conversely, in any chunks: the opening handshake succeeds; after that, whatever the two programs do, receive_data() raises no exception at either end, each end reports the data frames which the program sends at the other end, and when one program calls send_close(code, reason), both ends have this code and reason and accept the end of the stream. This holds whatever compression settings, subprotocols, origins and extra headers are configured, as long as the server accepts the origin and the request and the response can be sent.",
 "every configuration of both sides that satisfies the conditions of C41, every sequence of calls on both ends, every message, fragmentation and close code, every way to cut the bytes exchanged, and every zlib which does what it documents",
 "the composition of handshake, negotiation, compression, framing and closing for all configurations and all histories",
 [F+"client.py: ClientConnection, connect, process_response, send_request, parse", F+"server.py: ServerConnection, accept, process_request, send_response, parse", F+"connection.py: receive_data, receive_eof, send_continuation, send_text, send_binary, send_close, data_to_send, events_received, parse, step_parser, send_frame, send_eof", F+"extensions/permessage_deflate.py: PerMessageDeflate, ClientPerMessageDeflateFactory, ServerPerMessageDeflateFactory, encode, decode"])
p("By default, connect() and serve() compress messages; the compression argument does what it says",
 "With compression=\"deflate\", which is the default, the extensions given by the application are offered or accepted first, in the same order, and permessage-deflate is added if it wasn't among them; a configuration chosen by the application isn't changed. compression=None changes nothing; anything else raises ValueError. When connect() and serve() both have the default, and at least one of them isn't given a configuration of the extension, whatever the configuration of the other, the handshake ends with both sides compressing with the same settings.",
 "every list of extensions, every value of the argument, every configuration of permessage-deflate of one side, and every other argument of the handshake that satisfies the conditions of C85",
 "all configurations of both sides; compression which isn't negotiated doesn't make anything fail",
 [F+"legacy/client.py: Connect", F+"legacy/server.py: Serve", F+"extensions/permessage_deflate.py: enable_client_permessage_deflate, enable_server_permessage_deflate, ClientPerMessageDeflateFactory, ServerPerMessageDeflateFactory"])
p("Two Headers objects are equal exactly when nothing tells them apart; update() copies the headers of another object",
 "h == h2 for two Headers objects if and only if every sequence of method calls gives the same results on both. h.update(h2) appends the headers of h2 in order with their names in lower case, provided that no header of h2 has several values; otherwise it raises MultipleValuesError for such a header. Headers(h2) is the same with an empty object.",
 "every history of both objects, and every sequence of method calls",
 "equality must agree with all observations after any history",
 [F+"datastructures.py: Headers, __init__, __eq__, __setitem__, __getitem__, __iter__, raw_items"])
p("A client and a server of this library understand each other, from the opening handshake to the closing handshake (asyncio API)",
 "When connect() and serve() are given compatible configurations, the server accepts the request, the client accepts the response, and on the connection which is then open: recv() on one end returns the messages given to send() on the other end, in order, whether compression was negotiated or not; when an end is closed, its close code and its close reason are those chosen by one of the ends, or 1006 if no close frame was received; no end fails the connection because of what it receives, except when this is larger than its max_size; and when one of them sends a Close frame, the closing handshake completes as C88 says.",
 "every configuration of both ends which meets the hypotheses of C85, every interleaving of the steps of both ends, every behaviour of zlib allowed by its documentation, provided that fragmented messages don't overlap (C60) and that messages are below 2^56 characters or bytes",
 "the handshake, the compression and the connection are tested apart; what one negotiates must be what the other one needs, for all configurations and all schedules",
 [F+"legacy/client.py: handshake", F+"legacy/server.py: handshake", F+"legacy/protocol.py: connection_open, send, recv, close, transfer_data, fail_connection", F+"extensions/permessage_deflate.py: PerMessageDeflate, ClientPerMessageDeflateFactory, ServerPerMessageDeflateFactory"])
p("The arguments of connect() and serve() determine the connection that they create",
 "The limits, the timeouts and the other arguments given to connect() or serve() are those of the connection, as if the protocol was created directly. close_timeout is the value given, else the value of timeout, its former name, else 10 seconds; it can't be disabled, hence close() terminates within a bounded time on every connection. serve(origins) opens a connection exactly when the request is valid and its Origin header is in the list; None, or the empty string as in former versions, accepts requests without an Origin header; an empty Origin header is never accepted.",
 "every value of the arguments, every request, and for the duration of close(), every schedule of the connection, with failures and loss of the connection at any point",
 "all combinations of arguments; an argument which is dropped or exchanged with another one on the way changes only rare behaviours",
 [F+"legacy/client.py: Connect, WebSocketClientProtocol", F+"legacy/server.py: Serve, WebSocketServerProtocol, process_origin", F+"legacy/protocol.py: WebSocketCommonProtocol, close"])
p("With the default arguments, a client and a server work together",
 "connect(uri) and serve(handler, host, port), whatever limits and timeouts they are given: the request and the response can be sent, the opening handshake succeeds, both ends compress messages with the same settings, and they understand each other as C96 says until the closing handshake completes.",
 "every URI whose host and resource name are printable ASCII and which fits in the limits on lines, with or without credentials, every value of the limits and timeouts, every interleaving of the steps of both ends in which fragmented messages don't overlap (C60), every behaviour of zlib allowed by its documentation",
 "all schedules; the default values of a client and of a server are tested on a few executions",
 [F+"legacy/client.py: Connect, handshake", F+"legacy/server.py: Serve, handshake", F+"legacy/protocol.py: send, recv, close, transfer_data", F+"extensions/permessage_deflate.py: enable_client_permessage_deflate, enable_server_permessage_deflate"])
p("Names that are imported lazily are the objects of the modules that define them",
 "Importing any module of websockets succeeds. Once websockets is imported, websockets.<name> is the object that its module defines, for every documented name; so is every name of websockets.client, websockets.server and websockets.http kept for compatibility; deprecated names warn on each access, other names don't; unknown names raise AttributeError and import nothing; from websockets import * succeeds; dir() lists the names which are available.",
 "every history: every sequence of imports and attribute accesses, in any order, including those that fail",
 "which names are bound depends on everything that was imported before, in any order",
 [F+"imports.py: import_name, lazy_import", F+"__init__.py: lazy_import", F+"client.py: lazy_import", F+"server.py: lazy_import", F+"http.py: lazy_import"])
p("Credentials in a URI are only sent to the server of this URI",
 "Each request that connect() sends has the credentials of the URI that it is for, as an Authorization header which the server decodes to the same username and password, and none if this URI has no credentials: credentials given in a URI are not sent again when the server redirects elsewhere. The request is sent to the host and port of this URI unless connect() is told to connect elsewhere. Headers given with extra_headers are only sent to the server chosen by the user. Any username without a colon and any password can be given in a URI, percent-encoded if needed.",
 "every URI and arguments of connect(), every sequence of redirects, chosen by the servers depending on the past, every value of the other arguments",
 "redirects are chosen by servers that may not be trusted; tests follow one redirect and do not look at the credentials in the second request",
 [F+"legacy/client.py: handshake, __await_impl__, handle_redirect", F+"headers.py: build_authorization_basic, parse_authorization_basic", F+"uri.py: parse_uri"])
p("The credentials in a URI open a server that requires them",
 "When the URI has the credentials of a user, a server created with basic_auth_protocol_factory() answers the request that connect() sends exactly like the same server without authentication, whatever extra headers the request has. When the URI has other credentials or none, it answers 401 with a challenge.",
 "every username and password, every credentials argument of basic_auth_protocol_factory(), every realm, every configuration of the client and of the server, whatever follows the request on the wire",
 "credentials are arbitrary text; tests try two or three pairs against a fixed server",
 [F+"legacy/auth.py: basic_auth_protocol_factory, process_request", F+"legacy/client.py: handshake", F+"headers.py: build_authorization_basic, parse_authorization_basic", F+"legacy/http.py: read_request"])
p("Where serve() listens, and which protocols connect() and serve() create",
 "await serve(...) listens on the host and port, on the Unix socket or on the socket which is given, with TLS when ssl is an SSLContext, or raises an exception if none or several are given; unix_serve() never listens on TCP; unix_connect() only connects to its path. Connections are handled by create_protocol if it is given, else by klass, else by the class of the library; only deprecated arguments warn. The attributes host and port of the protocol are those given to serve(), or those of the URI which is requested, even after redirects; secure tells whether the connection uses TLS.",
 "every combination of arguments of serve(), unix_serve(), connect() and unix_connect(), every sequence of redirects",
 "all combinations of arguments that exclude each other; tests use a few of them",
 [F+"legacy/server.py: Serve, unix_serve", F+"legacy/client.py: Connect, unix_connect, handle_redirect", F+"legacy/protocol.py: WebSocketCommonProtocol"])
p("The opening handshake doesn't depend on how the network splits it",
 "A server made by serve() reads the same request, and a client made by connect() reads the same response, however the network splits the data, whatever read_limit is. While it reads a line, it only waits for more data when it has buffered at most half of read_limit.",
 "every stream of bytes, well-formed or not, every way of splitting it into pieces, every value of read_limit",
 "there are exponentially many ways of splitting a request; tests feed it at once",
 [F+"legacy/http.py: read_request, read_response, read_headers, read_line", F+"legacy/server.py: read_http_request", F+"legacy/client.py: read_http_response", F+"legacy/protocol.py: WebSocketCommonProtocol"])
p("A connection stops receiving when its buffer is full, and starts again",
 "A connection buffers at most read_limit bytes that aren't read yet, or the size of what is being read if that's more, plus the data received at once. Above read_limit bytes, and only there, receiving is paused unless more data is needed; at half of read_limit, and not before unless more data is needed, it's resumed. It's never paused while a read waits for data, so a message larger than read_limit can be received. Reads give the data received, in order, without loss.",
 "every sequence of pieces of data of any size, every sequence of reads of any size, every interleaving, every read_limit",
 "all schedules and sizes; a deadlock needs a message larger than the buffer that arrives in pieces at the right moment",
 [F+"legacy/protocol.py: WebSocketCommonProtocol, data_received, connection_made", F+"legacy/framing.py: Frame", F+"legacy/http.py: read_line"])
p("send() waits when the write buffer is full",
 "When any number of tasks send messages, ping or pong, at most write_limit bytes plus one frame for each task are buffered. A task only waits while more than a quarter of write_limit is buffered; it waits if more than write_limit is; writing is paused above write_limit and resumed at a quarter of it. When the network takes all the data, all calls can return.",
 "every number of tasks, every size of frames, every interleaving of their writes with the network, which takes data at any speed, every write_limit, with or without cancellation",
 "all schedules of tasks and of a slow network; a lost wakeup or an unbounded buffer needs a particular one",
 [F+"legacy/protocol.py: write_frame, connection_made, pause_writing, resume_writing, _drain, _drain_helper"])
p("local_address and remote_address are the addresses of the connection",
 "From the time the socket is connected until the connection is lost, local_address and remote_address are the addresses of the socket. When the connection isn't open, they are None.",
 "every history of a connection, with or without TLS, whenever the connection is lost",
 "all histories; tests use a mock transport",
 [F+"legacy/protocol.py: local_address, remote_address, connection_made, connection_lost"])
with open("/verif/properties.jsonl","w") as f:
    for x in P: f.write(json.dumps(x)+"\n")
print(len(P))
