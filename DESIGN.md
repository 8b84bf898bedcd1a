# Formal model of aaugustin/websockets in Rocq

Source: `/repo` (read as text, never built or run). Model and proofs:
`/verif/rocq/theories` (logical prefix `Verif`).  Properties: `properties.jsonl`;
status of each: `MANIFEST.json`; mutation log: `seeded/LOG.jsonl`.

## How the model is organised

| directory | contents |
|---|---|
| `theories/Base` | Python values used by the code: bytes, strings of code points, exceptions, UTF-8, base64, SHA-1, decimal printing, `int()` |
| `theories/Model` | one file per Python module, definitions only, each citing the lines it models |
| `theories/Spec` | small independent specifications (RFC 6455 layout, message grammar, multimap, header grammar, ...) that do not mention the model |
| `theories/Proofs` | lemmas |
| `theories/Properties` | the property theorems `Cnn_...`, with `Print Assumptions`, and `Example`s `Cnn_..._applies` showing that hypotheses are met |

Conventions

* `byte` is Coq's `Byte.byte`; a Python `str` is a list of code points (`N`), lone
  surrogates included; `int` is `N` or `Z`.
* Exceptions are values: `result A := Ok a | Raise e`; mutations made before a
  `raise` are kept (the new state is returned next to the result).
* Generator based coroutines (`yield from reader.read_exact(n)`) are values of an
  inductive type `gen` (read operations, access to the connection object, `yield`);
  a suspended generator is the remaining `gen`.  `Connection.parse`'s `while True`
  restarts the loop body; the restarts are bounded by a fuel argument which a theorem
  shows is never exhausted.
* Entropy, the clock and zlib are parameters.  What is assumed about zlib is an explicit
  hypothesis (`correct_zlib` and others, `Spec/Deflate.v`) of the theorems which need it, satisfied by a concrete instance.
* asyncio code is modelled as a labelled transition system: each task is a program
  counter, a step runs a task from one `await` to the next, and theorems quantify over
  all schedules (lists of steps).

A property that is false of the faithful model gets a theorem `..._refuted` with a concrete
witness, and, when possible, a `..._partial` theorem for the part that holds.

## Plan per property

| id | modelled | how proved |
|---|---|---|
| C01 | `Frame.serialize`, `Frame.parse` | computation of the parser on the serialized bytes, case split on the 3 length encodings |
| C02 | `Frame.serialize` | equality with the RFC layout in `Spec` |
| C03, C04 | `utils.apply_mask`, `speedups.c` apply_mask (block loops over words) | induction on data; block lemma on 8/16 byte chunks |
| C05 | `Frame.parse`, `check` | equivalence with a declarative predicate on byte strings |
| C06 | `parse_close`, `serialize_close`, `check_close` | round trip through UTF-8 codec lemmas |
| C07, C27 | `StreamReader`, generators, `receive_data` | "resume" lemma by induction on the generator, then on chunks |
| C08 | both connections | induction on sends with an invariant relating sender and receiver |
| C09, C10, C19 | `Connection.parse` | invariant over all histories |
| C11-C14, C16-C18, C20, C21 | `Connection` API | invariants over all histories |
| C15, C22, C23 | same | refutation witnesses, partial theorems |
| C24-C26 | `http11.py` | round trip, characterisation of the accepted streams |
| C28, C29 | `datastructures.Headers` | refinement to a list of pairs; heap model for aliasing (refutation) |
| C30 | `Headers.serialize` | refutation, partial theorem for CR/LF free values |
| C31-C35 | `headers.py` | round trips; equivalence of `parse_list` with a grammar |
| C36, C37 | `legacy/auth.py` | refutation; equivalence with membership |
| C38-C44 | `server.py`, `client.py`, `utils.py` | equivalence with declarative validity predicates; end-to-end composition |
| C45-C47 | `permessage_deflate.py` factories | case analysis over all configurations |
| C48-C50 | `permessage_deflate.py` codec over abstract zlib | invariant relating encoder and decoder under `correct_zlib` |
| C51 | client/server `parse` | refutation witnesses |
| C52-C54 | `legacy/client.py` redirect loop, `uri.py`, `http.py` | induction over redirect chains, refutation for C53 |
| C55, C56 | `read_message`, `read_data_frame` | incremental UTF-8 decoder lemma; induction over frames |
| C57-C60 | `recv`, `transfer_data`, `send` as LTS | invariants over schedules, refutation traces |
| C61-C68 | `legacy/protocol.py` life cycle as LTS | invariants over schedules, refutation traces |
| C69, C70, C76 | `WebSocketServerProtocol.handler` and `WebSocketServer` as an LTS over the connections | invariants over schedules, refutation traces |
| C71, C72 | `legacy/handshake.py`, handshakes of `legacy/server.py` and `legacy/client.py` | equality, branch by branch, with the model of `server.py` and `client.py` |
| C73 | `Connect.handle_redirect` | induction over redirect chains, refutation |
| C74 | `send` as LTS | invariant over schedules relating the frames written by a call to its position |
| C77 | `legacy/server.py` over `legacy/protocol.py` | simulation: steps before the connection opens commute with setting the extensions |
| C78 | `keepalive_ping` in the LTS of `legacy/protocol.py`; hypotheses on time in `Spec/AsyncioKeepalive.v` | invariants relating the clock, the deadline and the future of the last ping; refutation traces |
| C79 | `transfer_data` in the LTS of `legacy/protocol.py`, who writes each frame | invariant: the pongs written by `transfer_data` are the pings read, but the last one when it has stopped reading |
| C80 | all of `legacy/protocol.py` as an LTS; `stuck` (no task or call can run, now or later) in `Spec/AsyncioHang.v` | invariant relating what each task waits for to what can wake it up; in a stuck state every wait contradicts it; a decreasing measure bounds the number of steps before such a state; refutation traces |
| C81 | `Connect.__await_impl__` and `__aexit__` as an LTS on top of the connections (`Model/LegacyClient.v`) | invariant on the last connection for each point where `connect()` is suspended; a connection whose handshake was cancelled has no task nor call, so nothing closes it (refutation) |
| C82 | same as C81 | each connection has an execution in the LTS of `legacy/protocol.py`; simulation by the function `await_connect` of `Model/Connect.v` |
| C83 | `__aiter__` as an LTS on top of a connection (`Model/LegacyIter.v`): where the generator is suspended and what it yielded | invariant relating the messages yielded with those returned by the calls to `recv()`, when the loop is the only receiver; the decomposition of the data frames of C56 is refined to tell what is left when the last frame is a close frame |
| C84 | flow control as an LTS (`Model/LegacyDrain.v`): any number of tasks that write frames, the lock, the future awaited by `_drain_helper`, `pause_writing`, `resume_writing`, `connection_lost` and cancellations | invariant on the task that holds the lock and the future it awaits; a credit for each task bounds what it writes while writing is paused; a measure bounds the number of steps of the event loop |
| C85 | the handshakes of `legacy/client.py` and `legacy/server.py` (`Model/LegacyHandshake.v`), reading what the other side wrote | composition of the lemmas on negotiation behind C41 with round trips of requests and responses through `legacy/http.py` |
| C86 | two copies of the transition system of `Model/LegacyProtocol.v`, with interleaved steps, each receiving bytes that the other has already written (`Spec/AsyncioCloseCodes.v`) | invariants: where each close frame written comes from (`Proofs/LegacyCloseOrigin.v`), then, with the frames read being a prefix of those written by the peer and at most one close frame per end (C61), that echoes lead back to a choice |
| C87 | as C86, without extensions and with permessage-deflate; what is too big, what zlib does when its output is limited, and the reasons for a failure are in `Spec/AsyncioFailures.v` | the unread bytes of an end are the beginning of frames written by the other one; these pass the checks, their close frames parse (C86), their data frames are messages with valid UTF-8 (C60, C74): by cases on the step that fails (`Proofs/LegacyPeer.v`, `Proofs/LegacyFailures.v`); with compression, the decoder of an end is in step with the encoder of the other one (C75), so that a frame is decoded to what was sent or it is too large (`Proofs/DeflatePeer.v`); refuted when fragmented messages overlap |
| C88 | as C87, without extensions and with permessage-deflate; the events that disturb a closing handshake and the state in which it is complete are in `Spec/AsyncioHandshake.v` | until the Close frame of the other end is received, transfer_data is neither cancelled nor stopped by an exception (invariant over the steps of the two ends, `Proofs/LegacyHandshaking.v`); when it has nothing to do and all bytes were delivered, it has read every frame of the other end, among which the Close frame, and written its own; the same then holds for the other end; refuted when an end receives a ping after it sent its Close frame |
| C89 | `Model/Main.v` adds the interactive client to the machine of `Model/LegacyProtocol.v`: the loop of `run_client` and its tasks, the queue of inputs, the callbacks scheduled by the main thread, and the main thread; `Model/Exceptions.v` is `format_close`; what is displayed is in `Spec/Interactive.v` | invariant over the steps of the program (`Proofs/MainFacts.v`), on top of those of C57 (messages), C74 (frames written by a call), C65 and C66: a cancelled recv() doesn't take a message; the messages taken are those shown; each call to send() wrote one text frame; the lines typed are those sent, those that wait and at most one that was lost |
| C90 | both machines: `Model/Connection.v` and `Model/LegacyProtocol.v`, given the same bytes; the vocabulary is in `Spec/Alike.v` | the sans-I/O parser is described frame by frame (`Proofs/ParserRun.v`): after some bytes, it is in a state which determines what follows, or it failed; an invariant over the steps of the asyncio connection (`Proofs/Alike.v`) says that the sans-I/O connection is in the corresponding state after the bytes read so far; failures are followed to the frames written as for C87 |
| C91 | `Model/Connection.v`, two histories of calls, each of which is given what the other one wrote; the vocabulary is in `Spec/Endpoints.v` | what an end writes is a sequence of frames that the parser of the other end accepts (C11, C12, C21 and the invariants behind them); the parser and the processing of frames are followed byte by byte over any calls (`Proofs/SansIoEnds.v` for the receiver, `Proofs/SansIoSends.v` for the sender, `Proofs/EndpointsFacts.v` for both, all for any extension which encodes and decodes in step); the payload of a Close frame is that of a call or of the Close frame received; refuted when a ping comes after send_close() |
| C92 | the same, with `Model/PermessageDeflate.v`; zlib is a parameter with the hypotheses of C48 (`Spec/Deflate.v`); `Spec/CompressedEndpoints.v` says that both ends have negotiated the extension with the same settings, or no extension | the extension encodes and decodes in step (`Proofs/DeflateEnds.v`) and leaves control frames alone, so that the theorems behind C91 apply; the size of a message is at most 2^59 for compressed data to have a length that the wire format represents |
| C93 | `Model/Client.v` and `Model/Server.v` for the handshake, then the model of C92 | composition of C41, whose conclusion says that the extensions of both ends are just created with the same settings (`Spec/Negotiated.v`), and of C92; a chunk that contains the end of the response and the beginning of frames is the same as two chunks (C07) |
| C94 | the argument `compression` of `Connect` and `Serve` (`Model/Compression.v`), on top of the handshakes of C85 | the lists of extensions are described directly; C85 says that, when no extension is negotiated, every configuration of the server requires what no configuration of the client supports, which isn't the case of the default ones |
| C95 | `Headers.__eq__`, `update` and `__init__` with another `Headers` object (`Model/Datastructures.v`) | both objects represent the same list of pairs (the relation of C28); `raw_items()` tells others apart; induction on the names of the other object |
| C96 | the models of C85 and of C75, C86, C87, C88; what an end does for the other one is in `Spec/AsyncioFromHandshake.v` | composition of C85, whose conclusion says which extensions both ends have, with C75, C86, C87 and C88; the case in which no extension is negotiated is proved again for a connection that could have had one (`Properties/AsyncioFromHandshake.v`) |
| C97 | `Connect.__init__`, `Serve.__init__` and `__init__` of the protocols as functions on records of arguments (`Model/Arguments.v`) | case analysis; composition with C66 (duration of close()) and C71 (opening handshake) |
| C98 | the same with the default values, and the models of C94 and C96; URIs which can be requested are in `Spec/Requestable.v` | the default values meet the hypotheses of C94 and C96: the headers of the request and of the response are listed and are valid (`Proofs/DefaultHandshake.v`) |
| C99 | modules as namespaces; `import_name`, `lazy_import`, and the parts of the import system that they use (`Model/Imports.v`); the names bound by each file are listed by a script (`tools/gen_imports.py`, `Model/ImportTables.v`); the documented names are in `Spec/PublicNames.v` | invariant of `sys.modules` over every history; the tables meet the hypotheses, by computation |
| C100 | the request of each attempt (`Model/ConnectRequest.v`), on top of `Model/Connect.v` and `Model/Client.v` | C35, C52, C73 and the values of a multimap. False for `extra_headers` and for percent-encoded credentials: see Findings. |
| C101 | the request of `connect` written, read by `read_http_request` and answered by `legacy_response` with `auth_process_request` | C35, C37 and the lemmas of C85. |
| C102 | arguments of `serve`, `unix_serve` and `unix_connect`, `loop.create_server` and `loop.create_unix_server`; `create_protocol` and `klass` | Case analysis against an inductive specification of the listener; the invariant of the redirect loop of C73. |
| C103 | `asyncio.StreamReader.readuntil` and `readline` with a limit, `legacy/http.py` on top of them (`Model/StreamLimit.v`) | Induction over the pieces of data; equality with the reader of C85 up to the exception, which `InvalidMessage` replaces. |
| C104 | flow control of incoming data as a transition system (`Model/ReadFlow.v`): `feed_data`, `readexactly`, `readline`, pausing and resuming the transport | Invariant over all executions. |
| C105 | flow control of outgoing data as a transition system (`Model/WriteFlow.v`): the size of the write buffer, any number of tasks that write frames | Invariant over all executions; false when calls of `send` are cancelled: see Findings. |
| C106 | `local_address` and `remote_address` over the life of a connection, `get_extra_info` of asyncio with and without TLS | Induction over histories; false over TCP after the connection is lost. |
| C75 | both ends as LTSs | composition of C56, C60 and C74 with uniqueness of the frame encoding (and C48 with compression) |

## The asyncio connection as a transition system

`Model/LegacyProtocol.v` models `WebSocketCommonProtocol` as a labelled transition system.
A state holds the attributes of the connection and, for each coroutine in progress, the
`await` it is suspended at.  Coroutines are: `transfer_data` (T), `keepalive_ping` (K),
`close_connection` (C) and each call to `recv`, `send`, `close`, `ping`, `pong`,
`wait_closed` by the user (any number, concurrently).  A label runs one coroutine up to its
next `await`, or is an event: `connection_made`/opening, `data_received`, `eof_received`,
`connection_lost`, the passage of time, a new call, a cancellation, `fail_connection`
called by a subclass.  `exec` folds `step` over a list of labels; theorems hold for all lists
of labels which `exec` accepts, that is for every schedule.  Two labels can be chosen
adversarially although asyncio is more restrictive (order in which ready tasks run; when the
transport calls `connection_lost`), so theorems cover at least the real schedules; refutation
witnesses only use schedules that asyncio can produce.  Timeouts may expire late, except in
C66, where `punctual` says that a timeout whose date is reached fires before the clock moves.

`Model/LegacyServer.v` adds the handlers of connections and the closing task of a server.  A
state is a list of connections, each with the position of its handler; a label is a step of
a connection, of a handler or of the closing task, a new connection, or a call to
`WebSocketServer.close`.

`Model/LegacyClient.v` adds `connect()`.  A state is the list of the TCP connections that it
made, the remaining number of redirects and the point where it's suspended.

`Model/LegacyDrain.v` is a separate, more detailed model of flow control.  `Model/LegacyProtocol.v`
represents the end of `write_frame` by one suspension point with three outcomes: it succeeds, the
connection is lost, the task is cancelled.  `Model/LegacyDrain.v` models the lock, `_drain` and
`_drain_helper` for any number of tasks, and C84 shows that these are the only outcomes and that they
occur when they should.  `asyncio.Lock` is modelled as a lock that any waiting task may take when it's
free, which includes the order in which asyncio hands it over.

`Model/LegacyIter.v` adds `async for`.  A state is a connection, the point where the generator
`__aiter__` is suspended and what it yielded.

`Model/Main.v` adds the interactive client.  A state is a connection, the point where `run_client` is
suspended, what was displayed, the lines typed, sent and waiting, the callbacks scheduled by the main thread
in the event loop, and the point where the main thread is.

## Trusted base

1. Coq 8.16.1's kernel (and `coqchk`, which re-checks the compiled files).
2. Axioms: none.  `Print Assumptions` is run after every property theorem and prints
   "Closed under the global context" for each of them.  No file declares an axiom,
   parameter, or section variable outside of a closed section; no kernel check is switched
   off.  `coqchk` lists the primitive integers and the `ssr.ssrunder` constants that the
   standard library's plugins define; no theorem depends on them.
3. The model.  Coq can't check that it agrees with the Python code; each definition cites
   the lines it models so that they can be compared side by side.
4. Descriptions of what isn't in the repository.  They're parameters with stated contracts
   unless noted otherwise:

   | what | how it's described | where |
   |---|---|---|
   | Python's `bytes`, `str`, `int()`, `dict`, UTF-8 codec (strict and incremental), base64 | defined functions | `Base/` |
   | SHA-1 | defined function, tested on the RFC 6455 vector | `Base/Sha1.v` |
   | `zlib` | record `zlib`; contracts `correct_zlib`, `limits_output`, `reports_limit` (truncated output leaves an unconsumed tail, because the flushed data ends with the empty block), `truncates` (the same, and decompressing a prefix is not an error), `expands_little`, `can_compress`, `can_decompress`; instance `stored_zlib` | `Model/PermessageDeflate.v`, `Spec/Deflate.v`, `Proofs/StoredZlib.v` |
   | `secrets`, `random` | arguments (masking keys, ping payloads, nonces) | |
   | `email.utils.formatdate`, version strings, `ipaddress`, order of sets | record `env` (`any_order` for sets) | `Model/Handshake.v` |
   | `urllib.parse` (CPython 3.11) | defined functions; IDNA and bracketed addresses: record `uri_env` | `Model/Uri.v` |
   | regular expressions of `headers.py`, `http11.py` | defined functions on characters | `Model/Headers.v`, `Model/Http11.v` |
   | `asyncio`: tasks, futures, cancellation, `wait_for`, `StreamReader`, transports, drain | the transition system | `Model/LegacyProtocol.v`, `Model/StreamLimit.v`, `Model/ReadFlow.v`, `Model/WriteFlow.v`, `Model/Listen.v`, `Model/Addresses.v` |
   | C compiler, endianness | words are built from bytes in either byte order | `Model/Speedups.v` |

## What is modelled and what is not

Modelled: `frames.py`, `streams.py`, `connection.py`, `http11.py`, `datastructures.py`,
`headers.py`, `server.py`, `client.py`, `utils.py`, `uri.py`, `http.py` (`build_host`),
`extensions/permessage_deflate.py`, `speedups.c` (`apply_mask`), `legacy/framing.py`,
`legacy/handshake.py`, `legacy/http.py`, `legacy/protocol.py`, `legacy/auth.py`, `legacy/client.py` (handshake,
redirects, `Connect`), `legacy/server.py` (handshake,
handlers, `WebSocketServer.close` and `wait_closed`, arguments of `Serve`), `__main__.py` (`main`, `run_client`; not the parsing of
arguments nor the Windows console), `exceptions.py` (`format_close`), `imports.py`.

Not modelled: the system calls that create listening sockets, a sequence of hosts in `serve()`, Python 3.6 in `imports.py`, `typing.py`, logging and
the text of log records, `repr`, the messages of exceptions raised while parsing HTTP
(they're never sent), `speedups.c` argument parsing and allocation, `MemoryError` and
`RecursionError`, performance.  Simplifications of single
functions are stated in the comment of the definition.

## Findings

Theorems whose names end in `_refuted` show, on the model, that a property one would expect
is false of the code.  Each is a concrete execution.

| id | what happens |
|---|---|
| C08 | A close frame may be sent in the middle of a fragmented message; the peer then fails the connection with 1002 instead of delivering what precedes it. |
| C13 | After an unexpected end of stream the state stays OPEN although EOF was sent: data can be sent after EOF. |
| C15 | A ping received in the CLOSING state (or by a server in CONNECTING) makes `send_pong` raise `InvalidState`, caught as an internal error: the connection fails with 1011. |
| C22 | `send_text`, `send_binary` and `send_continuation` change `expect_continuation` before the checks which may raise: a failed call changes the state. On a server, `send_close` after EOF writes a close frame, then raises `AssertionError`. |
| C23 | The close code is never set when the stream ends without a close frame. |
| C29 | `Headers.copy()` shares the lists of values with the original. |
| C30 | CR LF in header values, or in the path, isn't refused: header injection. |
| C31, C41 | `extensions=[]` or `subprotocols=[]` on the client sends an empty header, which the server rejects with 400. |
| C33 | `build_quoted_string` accepts characters that `parse_quoted_string` refuses. |
| C36 | Basic credentials that aren't UTF-8, or two Authorization headers, give 500 rather than 401. |
| C37 | Credentials given as a list `[user, password]` are accepted and never match. |
| C39 | A non-ASCII `Sec-WebSocket-Key` gives 500; surrogates in an error message raise `UnicodeEncodeError`. |
| C46 | Windows of 8 bits are negotiated, but zlib refuses them for raw compression. |
| C50 | When a fragmented message has used up `max_size` exactly, the remaining limit is 0, which means no limit for zlib. |
| C51 | Frames that follow a request are parsed before the response is sent; a client parses frames after a rejected handshake. |
| C53 | After a redirect from a `ws` URI to a `wss` URI, TLS isn't used; with `ssl=None` it's never used, even for `wss` URIs. |
| C73 | With `unix_connect()` or `sock`, a redirect to another host or port fails with `TypeError` or `ValueError`. |
| C73 | A redirect whose `Location` is a relative reference, like `/new`, isn't followed: `handle_redirect()` gives it to `parse_uri()`, which raises `InvalidURI`. |
| C54 | Port 0 is replaced with the default port; an empty fragment is accepted; in an IRI, percent-encoded characters are encoded a second time. |
| C57 | A message in the hands of `transfer_data` is lost when the task is cancelled. |
| C59 | A call to `recv()` made after the waiting call was woken up, and before it ran, takes its message; the first call then waits again and replaces the future of a third one, which is never woken up; no call raises `RuntimeError`. |
| C60 | Asynchronous iterables sent concurrently are interleaved; cancelling a fragmented `send()` leaves a message unfinished and the next message is mixed up with it. |
| C65 | The close code reported changes from 1006 to the received code when a close frame is processed after the connection is lost. |
| C67 | A ping received while `close()` waits: `transfer_data` waits for the close in `ensure_open`, and the close waits for it, until the timeout; the close code is 1006. |
| C68 | A `send()` waiting for a fragmented message raises `InvalidState` after the close; raw `OSError`; `AttributeError` after a transport abort. |
| C69 | A connection made after the closing task has looked for connections (its TLS handshake was in progress) is still handled when `wait_closed()` returns. |
| C69, C70 | With Python 3.8 and later, `CancelledError` isn't caught by the handler: the connection is unregistered but left open, even after `wait_closed()`. |
| C76 | A handler that raised an exception doesn't wait for its TCP connection to be closed; nor does `wait_closed()`. |
| C78 | A keepalive ping written when the write buffer is full waits without any timeout. If its pong arrives before the buffer is flushed, `ping()` raises `KeyError` and the keepalive task ends: dead peers aren't detected any more. |
| C80 | After `close()` sets the state to CLOSING, it may leave without sending a Close frame nor cancelling `transfer_data`: when it's cancelled while writing the frame, when the reason is longer than 123 bytes (`ProtocolError`), or when the write fails with an `OSError` that isn't a `ConnectionError`. If a ping is received then, `transfer_data` waits in `ensure_open()` for `close_connection`, which waits for `transfer_data`: both wait forever, even when the connection is lost, and so do `recv()` and `close()`. |
| C80 | When two `send()` calls with asynchronous iterables run concurrently, the future of the first fragmented message is never resolved: a third call to `send()` waits forever. |
| C81 | If `connect()` is cancelled during the opening handshake, for example by `asyncio.wait_for(connect(...), timeout)`, the TCP connection is never closed by the client: `except Exception` doesn't catch `CancelledError` (Python >= 3.8), no task is running and the application has no reference to the connection. |
| C83 | With `legacy_recv=True`, `async for message in websocket` never ends normally: once the connection is closed, `recv()` returns `None` instead of raising `ConnectionClosedOK`, and the loop yields `None` again and again (`C83_legacy_recv_refuted`). The other theorems about `async for` require `legacy_recv=False`, the default. |
| C87 | When a client sends two asynchronous iterables at the same time (C60), the other end fails the connection with code 1002, although both ends run this library. |
| C88 | When the client calls ping() and close(), and the server calls close() before it receives the ping, the server answers neither the ping nor the Close frame: it waits in `ensure_open` until close() times out. |
| C89 | When the user types several lines and ^D quickly, only the first of the waiting lines is sent before the connection is closed: the loop ends after `await websocket.send(message)` because `stop` is done. |
| C89 | When the user types a line while the server closes the connection, `websocket.send()` raises `ConnectionClosed`, and messages already received aren't shown. |
| C89 | When `websocket.close()` raises an exception (C80), or the connection was aborted and not reported as lost yet (then `websocket.close_code` doesn't exist), `run_client` doesn't call `exit_from_event_loop_thread`: the program never ends. |
| C89 | When the user types ^D just before the connection ends, SIGINT interrupts `thread.join()`: the program ends with a traceback. |
| C89 | A text message `(binary) 00` is displayed like the binary message `00`, and a text message which contains control characters can be displayed like several messages. |
| C90 | When a close frame comes in the middle of a fragmented message, the asyncio connection answers it with the code that it received and then fails, without sending another frame; the sans-I/O connection fails with code 1002. |
| C90 | The sans-I/O connection doesn't decode text messages: invalid UTF-8 fails the asyncio connection with code 1007, and is reported as any other frame by the sans-I/O connection. |
| C91 | When a ping is received after send_close(), `Connection.parse` attempts to send a pong, which isn't allowed any more: receive_data() raises InvalidState although the peer did nothing wrong, and the connection never processes the Close frame that follows. |
| C95 | `Headers(h)`, unlike `h.copy()`, puts names in lower case, so that the result isn't equal to `h`, and raises MultipleValuesError if a header has several values (`C95_constructor`). |
| C99 | `dir(websockets.client)`, `dir(websockets.server)` and `dir(websockets.http)` don't list what these modules define, such as `ClientConnection`: `__dir__` uses the names which are bound when `lazy_import()` is called, before the module defines anything (`C99_dir_refuted`). |
| C100 | Headers given with `extra_headers`, like `Authorization` or `Cookie`, and `origin`, are sent to whatever host and port a server redirects to; `handle_redirect()` doesn't restrict them to the same origin. Credentials in the URI aren't sent again. |
| C100 | A username or a password that contains `/`, `?`, `#` or a character that isn't ASCII can't be given in a URI: `parse_uri()` doesn't decode percent-encoded credentials, and in an IRI it encodes them; the server receives `p%2Fss` for `p%2Fss`. |
| C101 | If `extra_headers` includes `Authorization` and the URI has credentials, the request has two `Authorization` headers and a server that requires authentication answers 500, even if both are correct. |
| C102 | `serve()` ignores `path` unless `unix` is true: `serve(handler, 'localhost', 80, path=...)` listens on TCP only, silently. |
| C102 | With a `wss` URI and `ssl=None`, the attribute `secure` of the client is `True`, although the connection doesn't use TLS (C53). |
| C103 | With `read_limit` below 8218 bytes, requests and responses with lines that are otherwise accepted (4110 bytes at most) are refused with `InvalidMessage`. |
| C105 | If calls of `send()` are cancelled while they wait for the buffer to drain, for example by `asyncio.wait_for()`, their frames stay in the buffer, which isn't bounded by `write_limit` anymore. |
| C106 | `local_address` and `remote_address` aren't `None` when the connection isn't open, contrary to their documentation: they're set when the socket is connected, and over TCP they stay available when the connection is lost. |

Other observations, not stated as properties: frame lengths encoded in more bytes than
needed are accepted; a second close frame overwrites the close code; `read_line` buffers
without bound before checking the limit; `int()` accepts `+101` and `1_0_1` as status codes;
`select_subprotocol` depends on the order of a set when priorities are equal;
`max_queue=0` deadlocks; a control frame longer than what's left of `max_size` in the middle
of a fragmented message fails the connection with 1009; `close_timeout=None` means 10 seconds: unlike
`ping_timeout`, the timeout can't be disabled.
