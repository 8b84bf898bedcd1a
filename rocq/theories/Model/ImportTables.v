(* Generated by tools/gen_imports.py: the names bound at the top level of each file of src/websockets, except the
   C extension speedups, read as text.  What is imported from another file of websockets is identified by the file and
   the name of its definition.  Of a try or if statement, all branches are included. *)
From Verif Require Import Base.Prelude Model.Imports.
Local Open Scope N_scope.

(* src/websockets/__init__.py, lazy_import() on lines 51-106 *)
Definition source_websockets : source := {|
  so_package := true;
  so_before := [(s "__all__", OObject [s "websockets"] (s "__all__"));
    (s "__version__", OObject [s "websockets"; s "version"] (s "version"));
    (s "lazy_import", OObject [s "websockets"; s "imports"] (s "lazy_import"));
    (s "__builtins__", OObject [s "websockets"] (s "__builtins__"));
    (s "__cached__", OObject [s "websockets"] (s "__cached__"));
    (s "__file__", OObject [s "websockets"] (s "__file__"));
    (s "__path__", OObject [s "websockets"] (s "__path__"));
    (s "__spec__", OObject [s "websockets"] (s "__spec__"));
    (s "__loader__", OObject [s "websockets"] (s "__loader__"));
    (s "__package__", OObject [s "websockets"] (s "__package__"));
    (s "__doc__", OObject [s "websockets"] (s "__doc__"));
    (s "__name__", OObject [s "websockets"] (s "__name__"))];
  so_lazy := Some ([(s "auth", s ".legacy"); (s "basic_auth_protocol_factory", s ".legacy.auth");
    (s "BasicAuthWebSocketServerProtocol", s ".legacy.auth"); (s "ClientConnection", s ".client");
    (s "connect", s ".legacy.client"); (s "unix_connect", s ".legacy.client");
    (s "WebSocketClientProtocol", s ".legacy.client"); (s "Headers", s ".datastructures");
    (s "MultipleValuesError", s ".datastructures"); (s "WebSocketException", s ".exceptions");
    (s "ConnectionClosed", s ".exceptions"); (s "ConnectionClosedError", s ".exceptions");
    (s "ConnectionClosedOK", s ".exceptions"); (s "InvalidHandshake", s ".exceptions");
    (s "SecurityError", s ".exceptions"); (s "InvalidMessage", s ".exceptions");
    (s "InvalidHeader", s ".exceptions"); (s "InvalidHeaderFormat", s ".exceptions");
    (s "InvalidHeaderValue", s ".exceptions"); (s "InvalidOrigin", s ".exceptions");
    (s "InvalidUpgrade", s ".exceptions"); (s "InvalidStatusCode", s ".exceptions");
    (s "NegotiationError", s ".exceptions"); (s "DuplicateParameter", s ".exceptions");
    (s "InvalidParameterName", s ".exceptions"); (s "InvalidParameterValue", s ".exceptions");
    (s "AbortHandshake", s ".exceptions"); (s "RedirectHandshake", s ".exceptions");
    (s "InvalidState", s ".exceptions"); (s "InvalidURI", s ".exceptions");
    (s "PayloadTooBig", s ".exceptions"); (s "ProtocolError", s ".exceptions");
    (s "WebSocketProtocolError", s ".exceptions"); (s "protocol", s ".legacy");
    (s "WebSocketCommonProtocol", s ".legacy.protocol"); (s "ServerConnection", s ".server");
    (s "serve", s ".legacy.server"); (s "unix_serve", s ".legacy.server");
    (s "WebSocketServerProtocol", s ".legacy.server"); (s "WebSocketServer", s ".legacy.server");
    (s "Data", s ".typing"); (s "Origin", s ".typing"); (s "ExtensionHeader", s ".typing");
    (s "ExtensionParameter", s ".typing"); (s "Subprotocol", s ".typing"); (s "parse_uri", s ".uri");
    (s "WebSocketURI", s ".uri")],
    [(s "framing", s ".legacy"); (s "handshake", s ".legacy")]);
  so_after := [] |}.

(* src/websockets/__main__.py *)
Definition source_websockets_main : source := {|
  so_package := false;
  so_before := [(s "main", OObject [s "websockets"; s "__main__"] (s "main"));
    (s "run_client", OObject [s "websockets"; s "__main__"] (s "run_client"));
    (s "print_over_input", OObject [s "websockets"; s "__main__"] (s "print_over_input"));
    (s "print_during_input", OObject [s "websockets"; s "__main__"] (s "print_during_input"));
    (s "exit_from_event_loop_thread", OObject [s "websockets"; s "__main__"] (s "exit_from_event_loop_thread"));
    (s "win_enable_vt100", OObject [s "websockets"; s "__main__"] (s "win_enable_vt100"));
    (s "connect", OObject [s "websockets"; s "legacy"; s "client"] (s "connect"));
    (s "format_close", OObject [s "websockets"; s "exceptions"] (s "format_close"));
    (s "ConnectionClosed", OObject [s "websockets"; s "exceptions"] (s "ConnectionClosed"));
    (s "Set", OObject [s "typing"] (s "Set")); (s "Any", OObject [s "typing"] (s "Any"));
    (s "threading", OModule [s "threading"]); (s "sys", OModule [s "sys"]); (s "signal", OModule [s "signal"]);
    (s "os", OModule [s "os"]); (s "asyncio", OModule [s "asyncio"]); (s "argparse", OModule [s "argparse"]);
    (s "__builtins__", OObject [s "websockets"; s "__main__"] (s "__builtins__"));
    (s "__cached__", OObject [s "websockets"; s "__main__"] (s "__cached__"));
    (s "__file__", OObject [s "websockets"; s "__main__"] (s "__file__"));
    (s "__spec__", OObject [s "websockets"; s "__main__"] (s "__spec__"));
    (s "__loader__", OObject [s "websockets"; s "__main__"] (s "__loader__"));
    (s "__package__", OObject [s "websockets"; s "__main__"] (s "__package__"));
    (s "__doc__", OObject [s "websockets"; s "__main__"] (s "__doc__"));
    (s "__name__", OObject [s "websockets"; s "__main__"] (s "__name__"))];
  so_lazy := None;
  so_after := [] |}.

(* src/websockets/client.py, lazy_import() on lines 39-46 *)
Definition source_websockets_client : source := {|
  so_package := false;
  so_before := [(s "generate_key", OObject [s "websockets"; s "utils"] (s "generate_key"));
    (s "accept_key", OObject [s "websockets"; s "utils"] (s "accept_key"));
    (s "parse_uri", OObject [s "websockets"; s "uri"] (s "parse_uri"));
    (s "UpgradeProtocol", OObject [s "websockets"; s "typing"] (s "UpgradeProtocol"));
    (s "Subprotocol", OObject [s "websockets"; s "typing"] (s "Subprotocol"));
    (s "Origin", OObject [s "websockets"; s "typing"] (s "Origin"));
    (s "ExtensionHeader", OObject [s "websockets"; s "typing"] (s "ExtensionHeader"));
    (s "ConnectionOption", OObject [s "websockets"; s "typing"] (s "ConnectionOption"));
    (s "lazy_import", OObject [s "websockets"; s "imports"] (s "lazy_import"));
    (s "Response", OObject [s "websockets"; s "http11"] (s "Response"));
    (s "Request", OObject [s "websockets"; s "http11"] (s "Request"));
    (s "build_host", OObject [s "websockets"; s "http"] (s "build_host"));
    (s "USER_AGENT", OObject [s "websockets"; s "http"] (s "USER_AGENT"));
    (s "parse_upgrade", OObject [s "websockets"; s "headers"] (s "parse_upgrade"));
    (s "parse_subprotocol", OObject [s "websockets"; s "headers"] (s "parse_subprotocol"));
    (s "parse_extension", OObject [s "websockets"; s "headers"] (s "parse_extension"));
    (s "parse_connection", OObject [s "websockets"; s "headers"] (s "parse_connection"));
    (s "build_subprotocol", OObject [s "websockets"; s "headers"] (s "build_subprotocol"));
    (s "build_extension", OObject [s "websockets"; s "headers"] (s "build_extension"));
    (s "build_authorization_basic", OObject [s "websockets"; s "headers"] (s "build_authorization_basic"));
    (s "Extension", OObject [s "websockets"; s "extensions"; s "base"] (s "Extension"));
    (s "ClientExtensionFactory", OObject [s "websockets"; s "extensions"; s "base"] (s "ClientExtensionFactory"));
    (s "NegotiationError", OObject [s "websockets"; s "exceptions"] (s "NegotiationError"));
    (s "InvalidUpgrade", OObject [s "websockets"; s "exceptions"] (s "InvalidUpgrade"));
    (s "InvalidStatusCode", OObject [s "websockets"; s "exceptions"] (s "InvalidStatusCode"));
    (s "InvalidHeaderValue", OObject [s "websockets"; s "exceptions"] (s "InvalidHeaderValue"));
    (s "InvalidHeader", OObject [s "websockets"; s "exceptions"] (s "InvalidHeader"));
    (s "InvalidHandshake", OObject [s "websockets"; s "exceptions"] (s "InvalidHandshake"));
    (s "MultipleValuesError", OObject [s "websockets"; s "datastructures"] (s "MultipleValuesError"));
    (s "HeadersLike", OObject [s "websockets"; s "datastructures"] (s "HeadersLike"));
    (s "Headers", OObject [s "websockets"; s "datastructures"] (s "Headers"));
    (s "Connection", OObject [s "websockets"; s "connection"] (s "Connection"));
    (s "OPEN", OObject [s "websockets"; s "connection"] (s "OPEN"));
    (s "CONNECTING", OObject [s "websockets"; s "connection"] (s "CONNECTING"));
    (s "CLIENT", OObject [s "websockets"; s "connection"] (s "CLIENT"));
    (s "Sequence", OObject [s "typing"] (s "Sequence")); (s "Optional", OObject [s "typing"] (s "Optional"));
    (s "List", OObject [s "typing"] (s "List")); (s "Generator", OObject [s "typing"] (s "Generator"));
    (s "logging", OModule [s "logging"]); (s "collections", OModule [s "collections"]);
    (s "__builtins__", OObject [s "websockets"; s "client"] (s "__builtins__"));
    (s "__cached__", OObject [s "websockets"; s "client"] (s "__cached__"));
    (s "__file__", OObject [s "websockets"; s "client"] (s "__file__"));
    (s "__spec__", OObject [s "websockets"; s "client"] (s "__spec__"));
    (s "__loader__", OObject [s "websockets"; s "client"] (s "__loader__"));
    (s "__package__", OObject [s "websockets"; s "client"] (s "__package__"));
    (s "__doc__", OObject [s "websockets"; s "client"] (s "__doc__"));
    (s "__name__", OObject [s "websockets"; s "client"] (s "__name__"))];
  so_lazy := Some ([(s "connect", s ".legacy.client"); (s "unix_connect", s ".legacy.client");
    (s "WebSocketClientProtocol", s ".legacy.client")],
    []);
  so_after := [(s "ClientConnection", OObject [s "websockets"; s "client"] (s "ClientConnection"));
    (s "logger", OObject [s "websockets"; s "client"] (s "logger"));
    (s "__all__", OObject [s "websockets"; s "client"] (s "__all__"))] |}.

(* src/websockets/connection.py *)
Definition source_websockets_connection : source := {|
  so_package := false;
  so_before := [(s "Connection", OObject [s "websockets"; s "connection"] (s "Connection"));
    (s "SEND_EOF", OObject [s "websockets"; s "connection"] (s "SEND_EOF"));
    (s "CLOSED", OObject [s "websockets"; s "connection"] (s "CLOSED"));
    (s "CLOSING", OObject [s "websockets"; s "connection"] (s "CLOSING"));
    (s "OPEN", OObject [s "websockets"; s "connection"] (s "OPEN"));
    (s "CONNECTING", OObject [s "websockets"; s "connection"] (s "CONNECTING"));
    (s "State", OObject [s "websockets"; s "connection"] (s "State"));
    (s "CLIENT", OObject [s "websockets"; s "connection"] (s "CLIENT"));
    (s "SERVER", OObject [s "websockets"; s "connection"] (s "SERVER"));
    (s "Side", OObject [s "websockets"; s "connection"] (s "Side"));
    (s "Event", OObject [s "websockets"; s "connection"] (s "Event"));
    (s "logger", OObject [s "websockets"; s "connection"] (s "logger"));
    (s "__all__", OObject [s "websockets"; s "connection"] (s "__all__"));
    (s "Subprotocol", OObject [s "websockets"; s "typing"] (s "Subprotocol"));
    (s "Origin", OObject [s "websockets"; s "typing"] (s "Origin"));
    (s "StreamReader", OObject [s "websockets"; s "streams"] (s "StreamReader"));
    (s "Response", OObject [s "websockets"; s "http11"] (s "Response"));
    (s "Request", OObject [s "websockets"; s "http11"] (s "Request"));
    (s "serialize_close", OObject [s "websockets"; s "frames"] (s "serialize_close"));
    (s "parse_close", OObject [s "websockets"; s "frames"] (s "parse_close"));
    (s "Frame", OObject [s "websockets"; s "frames"] (s "Frame"));
    (s "OP_TEXT", OObject [s "websockets"; s "frames"] (s "OP_TEXT"));
    (s "OP_PONG", OObject [s "websockets"; s "frames"] (s "OP_PONG"));
    (s "OP_PING", OObject [s "websockets"; s "frames"] (s "OP_PING"));
    (s "OP_CONT", OObject [s "websockets"; s "frames"] (s "OP_CONT"));
    (s "OP_CLOSE", OObject [s "websockets"; s "frames"] (s "OP_CLOSE"));
    (s "OP_BINARY", OObject [s "websockets"; s "frames"] (s "OP_BINARY"));
    (s "Extension", OObject [s "websockets"; s "extensions"; s "base"] (s "Extension"));
    (s "ProtocolError", OObject [s "websockets"; s "exceptions"] (s "ProtocolError"));
    (s "PayloadTooBig", OObject [s "websockets"; s "exceptions"] (s "PayloadTooBig"));
    (s "InvalidState", OObject [s "websockets"; s "exceptions"] (s "InvalidState"));
    (s "Union", OObject [s "typing"] (s "Union")); (s "Optional", OObject [s "typing"] (s "Optional"));
    (s "List", OObject [s "typing"] (s "List")); (s "Generator", OObject [s "typing"] (s "Generator"));
    (s "logging", OModule [s "logging"]); (s "enum", OModule [s "enum"]);
    (s "__builtins__", OObject [s "websockets"; s "connection"] (s "__builtins__"));
    (s "__cached__", OObject [s "websockets"; s "connection"] (s "__cached__"));
    (s "__file__", OObject [s "websockets"; s "connection"] (s "__file__"));
    (s "__spec__", OObject [s "websockets"; s "connection"] (s "__spec__"));
    (s "__loader__", OObject [s "websockets"; s "connection"] (s "__loader__"));
    (s "__package__", OObject [s "websockets"; s "connection"] (s "__package__"));
    (s "__doc__", OObject [s "websockets"; s "connection"] (s "__doc__"));
    (s "__name__", OObject [s "websockets"; s "connection"] (s "__name__"))];
  so_lazy := None;
  so_after := [] |}.

(* src/websockets/datastructures.py *)
Definition source_websockets_datastructures : source := {|
  so_package := false;
  so_before := [(s "HeadersLike", OObject [s "websockets"; s "datastructures"] (s "HeadersLike"));
    (s "Headers", OObject [s "websockets"; s "datastructures"] (s "Headers"));
    (s "MultipleValuesError", OObject [s "websockets"; s "datastructures"] (s "MultipleValuesError"));
    (s "__all__", OObject [s "websockets"; s "datastructures"] (s "__all__"));
    (s "Union", OObject [s "typing"] (s "Union")); (s "Tuple", OObject [s "typing"] (s "Tuple"));
    (s "MutableMapping", OObject [s "typing"] (s "MutableMapping"));
    (s "Mapping", OObject [s "typing"] (s "Mapping")); (s "List", OObject [s "typing"] (s "List"));
    (s "Iterator", OObject [s "typing"] (s "Iterator")); (s "Iterable", OObject [s "typing"] (s "Iterable"));
    (s "Dict", OObject [s "typing"] (s "Dict")); (s "Any", OObject [s "typing"] (s "Any"));
    (s "__builtins__", OObject [s "websockets"; s "datastructures"] (s "__builtins__"));
    (s "__cached__", OObject [s "websockets"; s "datastructures"] (s "__cached__"));
    (s "__file__", OObject [s "websockets"; s "datastructures"] (s "__file__"));
    (s "__spec__", OObject [s "websockets"; s "datastructures"] (s "__spec__"));
    (s "__loader__", OObject [s "websockets"; s "datastructures"] (s "__loader__"));
    (s "__package__", OObject [s "websockets"; s "datastructures"] (s "__package__"));
    (s "__doc__", OObject [s "websockets"; s "datastructures"] (s "__doc__"));
    (s "__name__", OObject [s "websockets"; s "datastructures"] (s "__name__"))];
  so_lazy := None;
  so_after := [] |}.

(* src/websockets/exceptions.py *)
Definition source_websockets_exceptions : source := {|
  so_package := false;
  so_before := [(s "WebSocketProtocolError", OObject [s "websockets"; s "exceptions"] (s "WebSocketProtocolError"));
    (s "ProtocolError", OObject [s "websockets"; s "exceptions"] (s "ProtocolError"));
    (s "PayloadTooBig", OObject [s "websockets"; s "exceptions"] (s "PayloadTooBig"));
    (s "InvalidURI", OObject [s "websockets"; s "exceptions"] (s "InvalidURI"));
    (s "InvalidState", OObject [s "websockets"; s "exceptions"] (s "InvalidState"));
    (s "RedirectHandshake", OObject [s "websockets"; s "exceptions"] (s "RedirectHandshake"));
    (s "AbortHandshake", OObject [s "websockets"; s "exceptions"] (s "AbortHandshake"));
    (s "InvalidParameterValue", OObject [s "websockets"; s "exceptions"] (s "InvalidParameterValue"));
    (s "InvalidParameterName", OObject [s "websockets"; s "exceptions"] (s "InvalidParameterName"));
    (s "DuplicateParameter", OObject [s "websockets"; s "exceptions"] (s "DuplicateParameter"));
    (s "NegotiationError", OObject [s "websockets"; s "exceptions"] (s "NegotiationError"));
    (s "InvalidStatusCode", OObject [s "websockets"; s "exceptions"] (s "InvalidStatusCode"));
    (s "InvalidUpgrade", OObject [s "websockets"; s "exceptions"] (s "InvalidUpgrade"));
    (s "InvalidOrigin", OObject [s "websockets"; s "exceptions"] (s "InvalidOrigin"));
    (s "InvalidHeaderValue", OObject [s "websockets"; s "exceptions"] (s "InvalidHeaderValue"));
    (s "InvalidHeaderFormat", OObject [s "websockets"; s "exceptions"] (s "InvalidHeaderFormat"));
    (s "InvalidHeader", OObject [s "websockets"; s "exceptions"] (s "InvalidHeader"));
    (s "InvalidMessage", OObject [s "websockets"; s "exceptions"] (s "InvalidMessage"));
    (s "SecurityError", OObject [s "websockets"; s "exceptions"] (s "SecurityError"));
    (s "InvalidHandshake", OObject [s "websockets"; s "exceptions"] (s "InvalidHandshake"));
    (s "ConnectionClosedOK", OObject [s "websockets"; s "exceptions"] (s "ConnectionClosedOK"));
    (s "ConnectionClosedError", OObject [s "websockets"; s "exceptions"] (s "ConnectionClosedError"));
    (s "ConnectionClosed", OObject [s "websockets"; s "exceptions"] (s "ConnectionClosed"));
    (s "format_close", OObject [s "websockets"; s "exceptions"] (s "format_close"));
    (s "CLOSE_CODES", OObject [s "websockets"; s "exceptions"] (s "CLOSE_CODES"));
    (s "WebSocketException", OObject [s "websockets"; s "exceptions"] (s "WebSocketException"));
    (s "__all__", OObject [s "websockets"; s "exceptions"] (s "__all__"));
    (s "HeadersLike", OObject [s "websockets"; s "datastructures"] (s "HeadersLike"));
    (s "Headers", OObject [s "websockets"; s "datastructures"] (s "Headers"));
    (s "Optional", OObject [s "typing"] (s "Optional")); (s "http", OModule [s "http"]);
    (s "__builtins__", OObject [s "websockets"; s "exceptions"] (s "__builtins__"));
    (s "__cached__", OObject [s "websockets"; s "exceptions"] (s "__cached__"));
    (s "__file__", OObject [s "websockets"; s "exceptions"] (s "__file__"));
    (s "__spec__", OObject [s "websockets"; s "exceptions"] (s "__spec__"));
    (s "__loader__", OObject [s "websockets"; s "exceptions"] (s "__loader__"));
    (s "__package__", OObject [s "websockets"; s "exceptions"] (s "__package__"));
    (s "__doc__", OObject [s "websockets"; s "exceptions"] (s "__doc__"));
    (s "__name__", OObject [s "websockets"; s "exceptions"] (s "__name__"))];
  so_lazy := None;
  so_after := [] |}.

(* src/websockets/extensions/__init__.py *)
Definition source_websockets_extensions : source := {|
  so_package := true;
  so_before := [(s "__builtins__", OObject [s "websockets"; s "extensions"] (s "__builtins__"));
    (s "__cached__", OObject [s "websockets"; s "extensions"] (s "__cached__"));
    (s "__file__", OObject [s "websockets"; s "extensions"] (s "__file__"));
    (s "__path__", OObject [s "websockets"; s "extensions"] (s "__path__"));
    (s "__spec__", OObject [s "websockets"; s "extensions"] (s "__spec__"));
    (s "__loader__", OObject [s "websockets"; s "extensions"] (s "__loader__"));
    (s "__package__", OObject [s "websockets"; s "extensions"] (s "__package__"));
    (s "__doc__", OObject [s "websockets"; s "extensions"] (s "__doc__"));
    (s "__name__", OObject [s "websockets"; s "extensions"] (s "__name__"))];
  so_lazy := None;
  so_after := [] |}.

(* src/websockets/extensions/base.py *)
Definition source_websockets_extensions_base : source := {|
  so_package := false;
  so_before := [
    (s "ServerExtensionFactory", OObject [s "websockets"; s "extensions"; s "base"] (s "ServerExtensionFactory"));
    (s "ClientExtensionFactory", OObject [s "websockets"; s "extensions"; s "base"] (s "ClientExtensionFactory"));
    (s "Extension", OObject [s "websockets"; s "extensions"; s "base"] (s "Extension"));
    (s "__all__", OObject [s "websockets"; s "extensions"; s "base"] (s "__all__"));
    (s "ExtensionParameter", OObject [s "websockets"; s "typing"] (s "ExtensionParameter"));
    (s "ExtensionName", OObject [s "websockets"; s "typing"] (s "ExtensionName"));
    (s "Frame", OObject [s "websockets"; s "frames"] (s "Frame"));
    (s "Tuple", OObject [s "typing"] (s "Tuple")); (s "Sequence", OObject [s "typing"] (s "Sequence"));
    (s "Optional", OObject [s "typing"] (s "Optional")); (s "List", OObject [s "typing"] (s "List"));
    (s "__builtins__", OObject [s "websockets"; s "extensions"; s "base"] (s "__builtins__"));
    (s "__cached__", OObject [s "websockets"; s "extensions"; s "base"] (s "__cached__"));
    (s "__file__", OObject [s "websockets"; s "extensions"; s "base"] (s "__file__"));
    (s "__spec__", OObject [s "websockets"; s "extensions"; s "base"] (s "__spec__"));
    (s "__loader__", OObject [s "websockets"; s "extensions"; s "base"] (s "__loader__"));
    (s "__package__", OObject [s "websockets"; s "extensions"; s "base"] (s "__package__"));
    (s "__doc__", OObject [s "websockets"; s "extensions"; s "base"] (s "__doc__"));
    (s "__name__", OObject [s "websockets"; s "extensions"; s "base"] (s "__name__"))];
  so_lazy := None;
  so_after := [] |}.

(* src/websockets/extensions/permessage_deflate.py *)
Definition source_websockets_extensions_permessage_deflate : source := {|
  so_package := false;
  so_before := [
    (s "enable_server_permessage_deflate", OObject [s "websockets"; s "extensions"; s "permessage_deflate"] (s "enable_server_permessage_deflate"));
    (s "ServerPerMessageDeflateFactory", OObject [s "websockets"; s "extensions"; s "permessage_deflate"] (s "ServerPerMessageDeflateFactory"));
    (s "enable_client_permessage_deflate", OObject [s "websockets"; s "extensions"; s "permessage_deflate"] (s "enable_client_permessage_deflate"));
    (s "ClientPerMessageDeflateFactory", OObject [s "websockets"; s "extensions"; s "permessage_deflate"] (s "ClientPerMessageDeflateFactory"));
    (s "_extract_parameters", OObject [s "websockets"; s "extensions"; s "permessage_deflate"] (s "_extract_parameters"));
    (s "_build_parameters", OObject [s "websockets"; s "extensions"; s "permessage_deflate"] (s "_build_parameters"));
    (s "PerMessageDeflate", OObject [s "websockets"; s "extensions"; s "permessage_deflate"] (s "PerMessageDeflate"));
    (s "_MAX_WINDOW_BITS_VALUES", OObject [s "websockets"; s "extensions"; s "permessage_deflate"] (s "_MAX_WINDOW_BITS_VALUES"));
    (s "_EMPTY_UNCOMPRESSED_BLOCK", OObject [s "websockets"; s "extensions"; s "permessage_deflate"] (s "_EMPTY_UNCOMPRESSED_BLOCK"));
    (s "__all__", OObject [s "websockets"; s "extensions"; s "permessage_deflate"] (s "__all__"));
    (s "ServerExtensionFactory", OObject [s "websockets"; s "extensions"; s "base"] (s "ServerExtensionFactory"));
    (s "Extension", OObject [s "websockets"; s "extensions"; s "base"] (s "Extension"));
    (s "ClientExtensionFactory", OObject [s "websockets"; s "extensions"; s "base"] (s "ClientExtensionFactory"));
    (s "ExtensionParameter", OObject [s "websockets"; s "typing"] (s "ExtensionParameter"));
    (s "ExtensionName", OObject [s "websockets"; s "typing"] (s "ExtensionName"));
    (s "Frame", OObject [s "websockets"; s "frames"] (s "Frame"));
    (s "OP_CONT", OObject [s "websockets"; s "frames"] (s "OP_CONT"));
    (s "CTRL_OPCODES", OObject [s "websockets"; s "frames"] (s "CTRL_OPCODES"));
    (s "PayloadTooBig", OObject [s "websockets"; s "exceptions"] (s "PayloadTooBig"));
    (s "NegotiationError", OObject [s "websockets"; s "exceptions"] (s "NegotiationError"));
    (s "InvalidParameterValue", OObject [s "websockets"; s "exceptions"] (s "InvalidParameterValue"));
    (s "InvalidParameterName", OObject [s "websockets"; s "exceptions"] (s "InvalidParameterName"));
    (s "DuplicateParameter", OObject [s "websockets"; s "exceptions"] (s "DuplicateParameter"));
    (s "Union", OObject [s "typing"] (s "Union")); (s "Tuple", OObject [s "typing"] (s "Tuple"));
    (s "Sequence", OObject [s "typing"] (s "Sequence")); (s "Optional", OObject [s "typing"] (s "Optional"));
    (s "List", OObject [s "typing"] (s "List")); (s "Dict", OObject [s "typing"] (s "Dict"));
    (s "Any", OObject [s "typing"] (s "Any")); (s "zlib", OModule [s "zlib"]);
    (s "__builtins__", OObject [s "websockets"; s "extensions"; s "permessage_deflate"] (s "__builtins__"));
    (s "__cached__", OObject [s "websockets"; s "extensions"; s "permessage_deflate"] (s "__cached__"));
    (s "__file__", OObject [s "websockets"; s "extensions"; s "permessage_deflate"] (s "__file__"));
    (s "__spec__", OObject [s "websockets"; s "extensions"; s "permessage_deflate"] (s "__spec__"));
    (s "__loader__", OObject [s "websockets"; s "extensions"; s "permessage_deflate"] (s "__loader__"));
    (s "__package__", OObject [s "websockets"; s "extensions"; s "permessage_deflate"] (s "__package__"));
    (s "__doc__", OObject [s "websockets"; s "extensions"; s "permessage_deflate"] (s "__doc__"));
    (s "__name__", OObject [s "websockets"; s "extensions"; s "permessage_deflate"] (s "__name__"))];
  so_lazy := None;
  so_after := [] |}.

(* src/websockets/frames.py *)
Definition source_websockets_frames : source := {|
  so_package := false;
  so_before := [(s "websockets", OModule [s "websockets"]);
    (s "check_close", OObject [s "websockets"; s "frames"] (s "check_close"));
    (s "serialize_close", OObject [s "websockets"; s "frames"] (s "serialize_close"));
    (s "parse_close", OObject [s "websockets"; s "frames"] (s "parse_close"));
    (s "prepare_ctrl", OObject [s "websockets"; s "frames"] (s "prepare_ctrl"));
    (s "prepare_data", OObject [s "websockets"; s "frames"] (s "prepare_data"));
    (s "Frame", OObject [s "websockets"; s "frames"] (s "Frame"));
    (s "EXTERNAL_CLOSE_CODES", OObject [s "websockets"; s "frames"] (s "EXTERNAL_CLOSE_CODES"));
    (s "CTRL_OPCODES", OObject [s "websockets"; s "frames"] (s "CTRL_OPCODES"));
    (s "DATA_OPCODES", OObject [s "websockets"; s "frames"] (s "DATA_OPCODES"));
    (s "OP_PONG", OObject [s "websockets"; s "frames"] (s "OP_PONG"));
    (s "OP_PING", OObject [s "websockets"; s "frames"] (s "OP_PING"));
    (s "OP_CLOSE", OObject [s "websockets"; s "frames"] (s "OP_CLOSE"));
    (s "OP_BINARY", OObject [s "websockets"; s "frames"] (s "OP_BINARY"));
    (s "OP_TEXT", OObject [s "websockets"; s "frames"] (s "OP_TEXT"));
    (s "OP_CONT", OObject [s "websockets"; s "frames"] (s "OP_CONT"));
    (s "Opcode", OObject [s "websockets"; s "frames"] (s "Opcode"));
    (s "__all__", OObject [s "websockets"; s "frames"] (s "__all__"));
    (s "apply_mask", OObject [s "websockets"; s "utils"] (s "apply_mask"));
    (s "Data", OObject [s "websockets"; s "typing"] (s "Data"));
    (s "ProtocolError", OObject [s "websockets"; s "exceptions"] (s "ProtocolError"));
    (s "PayloadTooBig", OObject [s "websockets"; s "exceptions"] (s "PayloadTooBig"));
    (s "Tuple", OObject [s "typing"] (s "Tuple")); (s "Sequence", OObject [s "typing"] (s "Sequence"));
    (s "Optional", OObject [s "typing"] (s "Optional"));
    (s "NamedTuple", OObject [s "typing"] (s "NamedTuple"));
    (s "Generator", OObject [s "typing"] (s "Generator")); (s "Callable", OObject [s "typing"] (s "Callable"));
    (s "struct", OModule [s "struct"]); (s "secrets", OModule [s "secrets"]); (s "io", OModule [s "io"]);
    (s "enum", OModule [s "enum"]);
    (s "__builtins__", OObject [s "websockets"; s "frames"] (s "__builtins__"));
    (s "__cached__", OObject [s "websockets"; s "frames"] (s "__cached__"));
    (s "__file__", OObject [s "websockets"; s "frames"] (s "__file__"));
    (s "__spec__", OObject [s "websockets"; s "frames"] (s "__spec__"));
    (s "__loader__", OObject [s "websockets"; s "frames"] (s "__loader__"));
    (s "__package__", OObject [s "websockets"; s "frames"] (s "__package__"));
    (s "__doc__", OObject [s "websockets"; s "frames"] (s "__doc__"));
    (s "__name__", OObject [s "websockets"; s "frames"] (s "__name__"))];
  so_lazy := None;
  so_after := [] |}.

(* src/websockets/headers.py *)
Definition source_websockets_headers : source := {|
  so_package := false;
  so_before := [(s "build_authorization_basic", OObject [s "websockets"; s "headers"] (s "build_authorization_basic"));
    (s "parse_authorization_basic", OObject [s "websockets"; s "headers"] (s "parse_authorization_basic"));
    (s "parse_end", OObject [s "websockets"; s "headers"] (s "parse_end"));
    (s "parse_token68", OObject [s "websockets"; s "headers"] (s "parse_token68"));
    (s "_token68_re", OObject [s "websockets"; s "headers"] (s "_token68_re"));
    (s "build_www_authenticate_basic", OObject [s "websockets"; s "headers"] (s "build_www_authenticate_basic"));
    (s "build_subprotocol_list", OObject [s "websockets"; s "headers"] (s "build_subprotocol_list"));
    (s "build_subprotocol", OObject [s "websockets"; s "headers"] (s "build_subprotocol"));
    (s "parse_subprotocol_list", OObject [s "websockets"; s "headers"] (s "parse_subprotocol_list"));
    (s "parse_subprotocol", OObject [s "websockets"; s "headers"] (s "parse_subprotocol"));
    (s "parse_subprotocol_item", OObject [s "websockets"; s "headers"] (s "parse_subprotocol_item"));
    (s "build_extension_list", OObject [s "websockets"; s "headers"] (s "build_extension_list"));
    (s "build_extension", OObject [s "websockets"; s "headers"] (s "build_extension"));
    (s "build_extension_item", OObject [s "websockets"; s "headers"] (s "build_extension_item"));
    (s "parse_extension_list", OObject [s "websockets"; s "headers"] (s "parse_extension_list"));
    (s "parse_extension", OObject [s "websockets"; s "headers"] (s "parse_extension"));
    (s "parse_extension_item", OObject [s "websockets"; s "headers"] (s "parse_extension_item"));
    (s "parse_extension_item_param", OObject [s "websockets"; s "headers"] (s "parse_extension_item_param"));
    (s "parse_upgrade", OObject [s "websockets"; s "headers"] (s "parse_upgrade"));
    (s "parse_upgrade_protocol", OObject [s "websockets"; s "headers"] (s "parse_upgrade_protocol"));
    (s "_protocol_re", OObject [s "websockets"; s "headers"] (s "_protocol_re"));
    (s "parse_connection", OObject [s "websockets"; s "headers"] (s "parse_connection"));
    (s "parse_connection_option", OObject [s "websockets"; s "headers"] (s "parse_connection_option"));
    (s "parse_list", OObject [s "websockets"; s "headers"] (s "parse_list"));
    (s "build_quoted_string", OObject [s "websockets"; s "headers"] (s "build_quoted_string"));
    (s "_quote_re", OObject [s "websockets"; s "headers"] (s "_quote_re"));
    (s "_quotable_re", OObject [s "websockets"; s "headers"] (s "_quotable_re"));
    (s "parse_quoted_string", OObject [s "websockets"; s "headers"] (s "parse_quoted_string"));
    (s "_unquote_re", OObject [s "websockets"; s "headers"] (s "_unquote_re"));
    (s "_quoted_string_re", OObject [s "websockets"; s "headers"] (s "_quoted_string_re"));
    (s "parse_token", OObject [s "websockets"; s "headers"] (s "parse_token"));
    (s "_token_re", OObject [s "websockets"; s "headers"] (s "_token_re"));
    (s "parse_OWS", OObject [s "websockets"; s "headers"] (s "parse_OWS"));
    (s "_OWS_re", OObject [s "websockets"; s "headers"] (s "_OWS_re"));
    (s "peek_ahead", OObject [s "websockets"; s "headers"] (s "peek_ahead"));
    (s "T", OObject [s "websockets"; s "headers"] (s "T"));
    (s "__all__", OObject [s "websockets"; s "headers"] (s "__all__"));
    (s "UpgradeProtocol", OObject [s "websockets"; s "typing"] (s "UpgradeProtocol"));
    (s "Subprotocol", OObject [s "websockets"; s "typing"] (s "Subprotocol"));
    (s "ExtensionParameter", OObject [s "websockets"; s "typing"] (s "ExtensionParameter"));
    (s "ExtensionName", OObject [s "websockets"; s "typing"] (s "ExtensionName"));
    (s "ExtensionHeader", OObject [s "websockets"; s "typing"] (s "ExtensionHeader"));
    (s "ConnectionOption", OObject [s "websockets"; s "typing"] (s "ConnectionOption"));
    (s "InvalidHeaderValue", OObject [s "websockets"; s "exceptions"] (s "InvalidHeaderValue"));
    (s "InvalidHeaderFormat", OObject [s "websockets"; s "exceptions"] (s "InvalidHeaderFormat"));
    (s "cast", OObject [s "typing"] (s "cast")); (s "TypeVar", OObject [s "typing"] (s "TypeVar"));
    (s "Tuple", OObject [s "typing"] (s "Tuple")); (s "Sequence", OObject [s "typing"] (s "Sequence"));
    (s "Optional", OObject [s "typing"] (s "Optional")); (s "List", OObject [s "typing"] (s "List"));
    (s "Callable", OObject [s "typing"] (s "Callable")); (s "re", OModule [s "re"]);
    (s "binascii", OModule [s "binascii"]); (s "base64", OModule [s "base64"]);
    (s "__builtins__", OObject [s "websockets"; s "headers"] (s "__builtins__"));
    (s "__cached__", OObject [s "websockets"; s "headers"] (s "__cached__"));
    (s "__file__", OObject [s "websockets"; s "headers"] (s "__file__"));
    (s "__spec__", OObject [s "websockets"; s "headers"] (s "__spec__"));
    (s "__loader__", OObject [s "websockets"; s "headers"] (s "__loader__"));
    (s "__package__", OObject [s "websockets"; s "headers"] (s "__package__"));
    (s "__doc__", OObject [s "websockets"; s "headers"] (s "__doc__"));
    (s "__name__", OObject [s "websockets"; s "headers"] (s "__name__"))];
  so_lazy := None;
  so_after := [] |}.

(* src/websockets/http.py, lazy_import() on lines 11-22 *)
Definition source_websockets_http : source := {|
  so_package := false;
  so_before := [(s "websockets_version", OObject [s "websockets"; s "version"] (s "version"));
    (s "lazy_import", OObject [s "websockets"; s "imports"] (s "lazy_import")); (s "sys", OModule [s "sys"]);
    (s "ipaddress", OModule [s "ipaddress"]);
    (s "__builtins__", OObject [s "websockets"; s "http"] (s "__builtins__"));
    (s "__cached__", OObject [s "websockets"; s "http"] (s "__cached__"));
    (s "__file__", OObject [s "websockets"; s "http"] (s "__file__"));
    (s "__spec__", OObject [s "websockets"; s "http"] (s "__spec__"));
    (s "__loader__", OObject [s "websockets"; s "http"] (s "__loader__"));
    (s "__package__", OObject [s "websockets"; s "http"] (s "__package__"));
    (s "__doc__", OObject [s "websockets"; s "http"] (s "__doc__"));
    (s "__name__", OObject [s "websockets"; s "http"] (s "__name__"))];
  so_lazy := Some ([(s "Headers", s ".datastructures"); (s "MultipleValuesError", s ".datastructures")],
    [(s "read_request", s ".legacy.http"); (s "read_response", s ".legacy.http")]);
  so_after := [(s "build_host", OObject [s "websockets"; s "http"] (s "build_host"));
    (s "USER_AGENT", OObject [s "websockets"; s "http"] (s "USER_AGENT"));
    (s "PYTHON_VERSION", OObject [s "websockets"; s "http"] (s "PYTHON_VERSION"));
    (s "__all__", OObject [s "websockets"; s "http"] (s "__all__"))] |}.

(* src/websockets/http11.py *)
Definition source_websockets_http11 : source := {|
  so_package := false;
  so_before := [(s "parse_line", OObject [s "websockets"; s "http11"] (s "parse_line"));
    (s "parse_headers", OObject [s "websockets"; s "http11"] (s "parse_headers"));
    (s "Response", OObject [s "websockets"; s "http11"] (s "Response"));
    (s "Request", OObject [s "websockets"; s "http11"] (s "Request"));
    (s "_value_re", OObject [s "websockets"; s "http11"] (s "_value_re"));
    (s "_token_re", OObject [s "websockets"; s "http11"] (s "_token_re"));
    (s "d", OObject [s "websockets"; s "http11"] (s "d"));
    (s "MAX_LINE", OObject [s "websockets"; s "http11"] (s "MAX_LINE"));
    (s "MAX_HEADERS", OObject [s "websockets"; s "http11"] (s "MAX_HEADERS"));
    (s "SecurityError", OObject [s "websockets"; s "exceptions"] (s "SecurityError"));
    (s "Headers", OObject [s "websockets"; s "datastructures"] (s "Headers"));
    (s "Optional", OObject [s "typing"] (s "Optional"));
    (s "NamedTuple", OObject [s "typing"] (s "NamedTuple"));
    (s "Generator", OObject [s "typing"] (s "Generator")); (s "Callable", OObject [s "typing"] (s "Callable"));
    (s "re", OModule [s "re"]); (s "__builtins__", OObject [s "websockets"; s "http11"] (s "__builtins__"));
    (s "__cached__", OObject [s "websockets"; s "http11"] (s "__cached__"));
    (s "__file__", OObject [s "websockets"; s "http11"] (s "__file__"));
    (s "__spec__", OObject [s "websockets"; s "http11"] (s "__spec__"));
    (s "__loader__", OObject [s "websockets"; s "http11"] (s "__loader__"));
    (s "__package__", OObject [s "websockets"; s "http11"] (s "__package__"));
    (s "__doc__", OObject [s "websockets"; s "http11"] (s "__doc__"));
    (s "__name__", OObject [s "websockets"; s "http11"] (s "__name__"))];
  so_lazy := None;
  so_after := [] |}.

(* src/websockets/imports.py *)
Definition source_websockets_imports : source := {|
  so_package := false;
  so_before := [(s "lazy_import", OObject [s "websockets"; s "imports"] (s "lazy_import"));
    (s "import_name", OObject [s "websockets"; s "imports"] (s "import_name"));
    (s "__all__", OObject [s "websockets"; s "imports"] (s "__all__"));
    (s "Optional", OObject [s "typing"] (s "Optional")); (s "Iterable", OObject [s "typing"] (s "Iterable"));
    (s "Dict", OObject [s "typing"] (s "Dict")); (s "Any", OObject [s "typing"] (s "Any"));
    (s "warnings", OModule [s "warnings"]); (s "sys", OModule [s "sys"]);
    (s "__builtins__", OObject [s "websockets"; s "imports"] (s "__builtins__"));
    (s "__cached__", OObject [s "websockets"; s "imports"] (s "__cached__"));
    (s "__file__", OObject [s "websockets"; s "imports"] (s "__file__"));
    (s "__spec__", OObject [s "websockets"; s "imports"] (s "__spec__"));
    (s "__loader__", OObject [s "websockets"; s "imports"] (s "__loader__"));
    (s "__package__", OObject [s "websockets"; s "imports"] (s "__package__"));
    (s "__doc__", OObject [s "websockets"; s "imports"] (s "__doc__"));
    (s "__name__", OObject [s "websockets"; s "imports"] (s "__name__"))];
  so_lazy := None;
  so_after := [] |}.

(* src/websockets/legacy/__init__.py *)
Definition source_websockets_legacy : source := {|
  so_package := true;
  so_before := [(s "__builtins__", OObject [s "websockets"; s "legacy"] (s "__builtins__"));
    (s "__cached__", OObject [s "websockets"; s "legacy"] (s "__cached__"));
    (s "__file__", OObject [s "websockets"; s "legacy"] (s "__file__"));
    (s "__path__", OObject [s "websockets"; s "legacy"] (s "__path__"));
    (s "__spec__", OObject [s "websockets"; s "legacy"] (s "__spec__"));
    (s "__loader__", OObject [s "websockets"; s "legacy"] (s "__loader__"));
    (s "__package__", OObject [s "websockets"; s "legacy"] (s "__package__"));
    (s "__doc__", OObject [s "websockets"; s "legacy"] (s "__doc__"));
    (s "__name__", OObject [s "websockets"; s "legacy"] (s "__name__"))];
  so_lazy := None;
  so_after := [] |}.

(* src/websockets/legacy/auth.py *)
Definition source_websockets_legacy_auth : source := {|
  so_package := false;
  so_before := [
    (s "basic_auth_protocol_factory", OObject [s "websockets"; s "legacy"; s "auth"] (s "basic_auth_protocol_factory"));
    (s "BasicAuthWebSocketServerProtocol", OObject [s "websockets"; s "legacy"; s "auth"] (s "BasicAuthWebSocketServerProtocol"));
    (s "is_credentials", OObject [s "websockets"; s "legacy"; s "auth"] (s "is_credentials"));
    (s "Credentials", OObject [s "websockets"; s "legacy"; s "auth"] (s "Credentials"));
    (s "__all__", OObject [s "websockets"; s "legacy"; s "auth"] (s "__all__"));
    (s "WebSocketServerProtocol", OObject [s "websockets"; s "legacy"; s "server"] (s "WebSocketServerProtocol"));
    (s "HTTPResponse", OObject [s "websockets"; s "legacy"; s "server"] (s "HTTPResponse"));
    (s "parse_authorization_basic", OObject [s "websockets"; s "headers"] (s "parse_authorization_basic"));
    (s "build_www_authenticate_basic", OObject [s "websockets"; s "headers"] (s "build_www_authenticate_basic"));
    (s "InvalidHeader", OObject [s "websockets"; s "exceptions"] (s "InvalidHeader"));
    (s "Headers", OObject [s "websockets"; s "datastructures"] (s "Headers"));
    (s "cast", OObject [s "typing"] (s "cast")); (s "Union", OObject [s "typing"] (s "Union"));
    (s "Tuple", OObject [s "typing"] (s "Tuple")); (s "Optional", OObject [s "typing"] (s "Optional"));
    (s "Iterable", OObject [s "typing"] (s "Iterable")); (s "Callable", OObject [s "typing"] (s "Callable"));
    (s "Awaitable", OObject [s "typing"] (s "Awaitable")); (s "Any", OObject [s "typing"] (s "Any"));
    (s "http", OModule [s "http"]); (s "functools", OModule [s "functools"]);
    (s "__builtins__", OObject [s "websockets"; s "legacy"; s "auth"] (s "__builtins__"));
    (s "__cached__", OObject [s "websockets"; s "legacy"; s "auth"] (s "__cached__"));
    (s "__file__", OObject [s "websockets"; s "legacy"; s "auth"] (s "__file__"));
    (s "__spec__", OObject [s "websockets"; s "legacy"; s "auth"] (s "__spec__"));
    (s "__loader__", OObject [s "websockets"; s "legacy"; s "auth"] (s "__loader__"));
    (s "__package__", OObject [s "websockets"; s "legacy"; s "auth"] (s "__package__"));
    (s "__doc__", OObject [s "websockets"; s "legacy"; s "auth"] (s "__doc__"));
    (s "__name__", OObject [s "websockets"; s "legacy"; s "auth"] (s "__name__"))];
  so_lazy := None;
  so_after := [] |}.

(* src/websockets/legacy/client.py *)
Definition source_websockets_legacy_client : source := {|
  so_package := false;
  so_before := [(s "unix_connect", OObject [s "websockets"; s "legacy"; s "client"] (s "unix_connect"));
    (s "connect", OObject [s "websockets"; s "legacy"; s "client"] (s "connect"));
    (s "Connect", OObject [s "websockets"; s "legacy"; s "client"] (s "Connect"));
    (s "WebSocketClientProtocol", OObject [s "websockets"; s "legacy"; s "client"] (s "WebSocketClientProtocol"));
    (s "logger", OObject [s "websockets"; s "legacy"; s "client"] (s "logger"));
    (s "__all__", OObject [s "websockets"; s "legacy"; s "client"] (s "__all__"));
    (s "WebSocketCommonProtocol", OObject [s "websockets"; s "legacy"; s "protocol"] (s "WebSocketCommonProtocol"));
    (s "read_response", OObject [s "websockets"; s "legacy"; s "http"] (s "read_response"));
    (s "check_response", OObject [s "websockets"; s "legacy"; s "handshake"] (s "check_response"));
    (s "build_request", OObject [s "websockets"; s "legacy"; s "handshake"] (s "build_request"));
    (s "parse_uri", OObject [s "websockets"; s "uri"] (s "parse_uri"));
    (s "WebSocketURI", OObject [s "websockets"; s "uri"] (s "WebSocketURI"));
    (s "Subprotocol", OObject [s "websockets"; s "typing"] (s "Subprotocol"));
    (s "Origin", OObject [s "websockets"; s "typing"] (s "Origin"));
    (s "ExtensionHeader", OObject [s "websockets"; s "typing"] (s "ExtensionHeader"));
    (s "build_host", OObject [s "websockets"; s "http"] (s "build_host"));
    (s "USER_AGENT", OObject [s "websockets"; s "http"] (s "USER_AGENT"));
    (s "parse_subprotocol", OObject [s "websockets"; s "headers"] (s "parse_subprotocol"));
    (s "parse_extension", OObject [s "websockets"; s "headers"] (s "parse_extension"));
    (s "build_subprotocol", OObject [s "websockets"; s "headers"] (s "build_subprotocol"));
    (s "build_extension", OObject [s "websockets"; s "headers"] (s "build_extension"));
    (s "build_authorization_basic", OObject [s "websockets"; s "headers"] (s "build_authorization_basic"));
    (s "enable_client_permessage_deflate", OObject [s "websockets"; s "extensions"; s "permessage_deflate"] (s "enable_client_permessage_deflate"));
    (s "Extension", OObject [s "websockets"; s "extensions"; s "base"] (s "Extension"));
    (s "ClientExtensionFactory", OObject [s "websockets"; s "extensions"; s "base"] (s "ClientExtensionFactory"));
    (s "SecurityError", OObject [s "websockets"; s "exceptions"] (s "SecurityError"));
    (s "RedirectHandshake", OObject [s "websockets"; s "exceptions"] (s "RedirectHandshake"));
    (s "NegotiationError", OObject [s "websockets"; s "exceptions"] (s "NegotiationError"));
    (s "InvalidStatusCode", OObject [s "websockets"; s "exceptions"] (s "InvalidStatusCode"));
    (s "InvalidMessage", OObject [s "websockets"; s "exceptions"] (s "InvalidMessage"));
    (s "InvalidHeader", OObject [s "websockets"; s "exceptions"] (s "InvalidHeader"));
    (s "InvalidHandshake", OObject [s "websockets"; s "exceptions"] (s "InvalidHandshake"));
    (s "HeadersLike", OObject [s "websockets"; s "datastructures"] (s "HeadersLike"));
    (s "Headers", OObject [s "websockets"; s "datastructures"] (s "Headers"));
    (s "cast", OObject [s "typing"] (s "cast")); (s "Type", OObject [s "typing"] (s "Type"));
    (s "Tuple", OObject [s "typing"] (s "Tuple")); (s "Sequence", OObject [s "typing"] (s "Sequence"));
    (s "Optional", OObject [s "typing"] (s "Optional")); (s "List", OObject [s "typing"] (s "List"));
    (s "Generator", OObject [s "typing"] (s "Generator")); (s "Callable", OObject [s "typing"] (s "Callable"));
    (s "Any", OObject [s "typing"] (s "Any")); (s "TracebackType", OObject [s "types"] (s "TracebackType"));
    (s "warnings", OModule [s "warnings"]); (s "logging", OModule [s "logging"]);
    (s "functools", OModule [s "functools"]); (s "collections", OModule [s "collections"]);
    (s "asyncio", OModule [s "asyncio"]);
    (s "__builtins__", OObject [s "websockets"; s "legacy"; s "client"] (s "__builtins__"));
    (s "__cached__", OObject [s "websockets"; s "legacy"; s "client"] (s "__cached__"));
    (s "__file__", OObject [s "websockets"; s "legacy"; s "client"] (s "__file__"));
    (s "__spec__", OObject [s "websockets"; s "legacy"; s "client"] (s "__spec__"));
    (s "__loader__", OObject [s "websockets"; s "legacy"; s "client"] (s "__loader__"));
    (s "__package__", OObject [s "websockets"; s "legacy"; s "client"] (s "__package__"));
    (s "__doc__", OObject [s "websockets"; s "legacy"; s "client"] (s "__doc__"));
    (s "__name__", OObject [s "websockets"; s "legacy"; s "client"] (s "__name__"))];
  so_lazy := None;
  so_after := [] |}.

(* src/websockets/legacy/framing.py *)
Definition source_websockets_legacy_framing : source := {|
  so_package := false;
  so_before := [(s "websockets", OModule [s "websockets"]);
    (s "serialize_close", OObject [s "websockets"; s "frames"] (s "serialize_close"));
    (s "prepare_data", OObject [s "websockets"; s "frames"] (s "prepare_data"));
    (s "encode_data", OObject [s "websockets"; s "frames"] (s "prepare_ctrl"));
    (s "parse_close", OObject [s "websockets"; s "frames"] (s "parse_close"));
    (s "Frame", OObject [s "websockets"; s "legacy"; s "framing"] (s "Frame"));
    (s "apply_mask", OObject [s "websockets"; s "utils"] (s "apply_mask"));
    (s "Opcode", OObject [s "websockets"; s "frames"] (s "Opcode"));
    (s "NewFrame", OObject [s "websockets"; s "frames"] (s "Frame"));
    (s "ProtocolError", OObject [s "websockets"; s "exceptions"] (s "ProtocolError"));
    (s "PayloadTooBig", OObject [s "websockets"; s "exceptions"] (s "PayloadTooBig"));
    (s "Sequence", OObject [s "typing"] (s "Sequence")); (s "Optional", OObject [s "typing"] (s "Optional"));
    (s "Callable", OObject [s "typing"] (s "Callable")); (s "Awaitable", OObject [s "typing"] (s "Awaitable"));
    (s "Any", OObject [s "typing"] (s "Any")); (s "struct", OModule [s "struct"]);
    (s "__builtins__", OObject [s "websockets"; s "legacy"; s "framing"] (s "__builtins__"));
    (s "__cached__", OObject [s "websockets"; s "legacy"; s "framing"] (s "__cached__"));
    (s "__file__", OObject [s "websockets"; s "legacy"; s "framing"] (s "__file__"));
    (s "__spec__", OObject [s "websockets"; s "legacy"; s "framing"] (s "__spec__"));
    (s "__loader__", OObject [s "websockets"; s "legacy"; s "framing"] (s "__loader__"));
    (s "__package__", OObject [s "websockets"; s "legacy"; s "framing"] (s "__package__"));
    (s "__doc__", OObject [s "websockets"; s "legacy"; s "framing"] (s "__doc__"));
    (s "__name__", OObject [s "websockets"; s "legacy"; s "framing"] (s "__name__"))];
  so_lazy := None;
  so_after := [] |}.

(* src/websockets/legacy/handshake.py *)
Definition source_websockets_legacy_handshake : source := {|
  so_package := false;
  so_before := [(s "check_response", OObject [s "websockets"; s "legacy"; s "handshake"] (s "check_response"));
    (s "build_response", OObject [s "websockets"; s "legacy"; s "handshake"] (s "build_response"));
    (s "check_request", OObject [s "websockets"; s "legacy"; s "handshake"] (s "check_request"));
    (s "build_request", OObject [s "websockets"; s "legacy"; s "handshake"] (s "build_request"));
    (s "__all__", OObject [s "websockets"; s "legacy"; s "handshake"] (s "__all__"));
    (s "generate_key", OObject [s "websockets"; s "utils"] (s "generate_key"));
    (s "accept", OObject [s "websockets"; s "utils"] (s "accept_key"));
    (s "UpgradeProtocol", OObject [s "websockets"; s "typing"] (s "UpgradeProtocol"));
    (s "ConnectionOption", OObject [s "websockets"; s "typing"] (s "ConnectionOption"));
    (s "parse_upgrade", OObject [s "websockets"; s "headers"] (s "parse_upgrade"));
    (s "parse_connection", OObject [s "websockets"; s "headers"] (s "parse_connection"));
    (s "InvalidUpgrade", OObject [s "websockets"; s "exceptions"] (s "InvalidUpgrade"));
    (s "InvalidHeaderValue", OObject [s "websockets"; s "exceptions"] (s "InvalidHeaderValue"));
    (s "InvalidHeader", OObject [s "websockets"; s "exceptions"] (s "InvalidHeader"));
    (s "MultipleValuesError", OObject [s "websockets"; s "datastructures"] (s "MultipleValuesError"));
    (s "Headers", OObject [s "websockets"; s "datastructures"] (s "Headers"));
    (s "List", OObject [s "typing"] (s "List")); (s "binascii", OModule [s "binascii"]);
    (s "base64", OModule [s "base64"]);
    (s "__builtins__", OObject [s "websockets"; s "legacy"; s "handshake"] (s "__builtins__"));
    (s "__cached__", OObject [s "websockets"; s "legacy"; s "handshake"] (s "__cached__"));
    (s "__file__", OObject [s "websockets"; s "legacy"; s "handshake"] (s "__file__"));
    (s "__spec__", OObject [s "websockets"; s "legacy"; s "handshake"] (s "__spec__"));
    (s "__loader__", OObject [s "websockets"; s "legacy"; s "handshake"] (s "__loader__"));
    (s "__package__", OObject [s "websockets"; s "legacy"; s "handshake"] (s "__package__"));
    (s "__doc__", OObject [s "websockets"; s "legacy"; s "handshake"] (s "__doc__"));
    (s "__name__", OObject [s "websockets"; s "legacy"; s "handshake"] (s "__name__"))];
  so_lazy := None;
  so_after := [] |}.

(* src/websockets/legacy/http.py *)
Definition source_websockets_legacy_http : source := {|
  so_package := false;
  so_before := [(s "read_line", OObject [s "websockets"; s "legacy"; s "http"] (s "read_line"));
    (s "read_headers", OObject [s "websockets"; s "legacy"; s "http"] (s "read_headers"));
    (s "read_response", OObject [s "websockets"; s "legacy"; s "http"] (s "read_response"));
    (s "read_request", OObject [s "websockets"; s "legacy"; s "http"] (s "read_request"));
    (s "_value_re", OObject [s "websockets"; s "legacy"; s "http"] (s "_value_re"));
    (s "_token_re", OObject [s "websockets"; s "legacy"; s "http"] (s "_token_re"));
    (s "d", OObject [s "websockets"; s "legacy"; s "http"] (s "d"));
    (s "MAX_LINE", OObject [s "websockets"; s "legacy"; s "http"] (s "MAX_LINE"));
    (s "MAX_HEADERS", OObject [s "websockets"; s "legacy"; s "http"] (s "MAX_HEADERS"));
    (s "__all__", OObject [s "websockets"; s "legacy"; s "http"] (s "__all__"));
    (s "SecurityError", OObject [s "websockets"; s "exceptions"] (s "SecurityError"));
    (s "Headers", OObject [s "websockets"; s "datastructures"] (s "Headers"));
    (s "Tuple", OObject [s "typing"] (s "Tuple")); (s "re", OModule [s "re"]);
    (s "asyncio", OModule [s "asyncio"]);
    (s "__builtins__", OObject [s "websockets"; s "legacy"; s "http"] (s "__builtins__"));
    (s "__cached__", OObject [s "websockets"; s "legacy"; s "http"] (s "__cached__"));
    (s "__file__", OObject [s "websockets"; s "legacy"; s "http"] (s "__file__"));
    (s "__spec__", OObject [s "websockets"; s "legacy"; s "http"] (s "__spec__"));
    (s "__loader__", OObject [s "websockets"; s "legacy"; s "http"] (s "__loader__"));
    (s "__package__", OObject [s "websockets"; s "legacy"; s "http"] (s "__package__"));
    (s "__doc__", OObject [s "websockets"; s "legacy"; s "http"] (s "__doc__"));
    (s "__name__", OObject [s "websockets"; s "legacy"; s "http"] (s "__name__"))];
  so_lazy := None;
  so_after := [] |}.

(* src/websockets/legacy/protocol.py *)
Definition source_websockets_legacy_protocol : source := {|
  so_package := false;
  so_before := [
    (s "WebSocketCommonProtocol", OObject [s "websockets"; s "legacy"; s "protocol"] (s "WebSocketCommonProtocol"));
    (s "State", OObject [s "websockets"; s "legacy"; s "protocol"] (s "State"));
    (s "logger", OObject [s "websockets"; s "legacy"; s "protocol"] (s "logger"));
    (s "__all__", OObject [s "websockets"; s "legacy"; s "protocol"] (s "__all__"));
    (s "Frame", OObject [s "websockets"; s "legacy"; s "framing"] (s "Frame"));
    (s "Subprotocol", OObject [s "websockets"; s "typing"] (s "Subprotocol"));
    (s "Data", OObject [s "websockets"; s "typing"] (s "Data"));
    (s "serialize_close", OObject [s "websockets"; s "frames"] (s "serialize_close"));
    (s "prepare_data", OObject [s "websockets"; s "frames"] (s "prepare_data"));
    (s "prepare_ctrl", OObject [s "websockets"; s "frames"] (s "prepare_ctrl"));
    (s "parse_close", OObject [s "websockets"; s "frames"] (s "parse_close"));
    (s "Opcode", OObject [s "websockets"; s "frames"] (s "Opcode"));
    (s "OP_TEXT", OObject [s "websockets"; s "frames"] (s "OP_TEXT"));
    (s "OP_PONG", OObject [s "websockets"; s "frames"] (s "OP_PONG"));
    (s "OP_PING", OObject [s "websockets"; s "frames"] (s "OP_PING"));
    (s "OP_CONT", OObject [s "websockets"; s "frames"] (s "OP_CONT"));
    (s "OP_CLOSE", OObject [s "websockets"; s "frames"] (s "OP_CLOSE"));
    (s "OP_BINARY", OObject [s "websockets"; s "frames"] (s "OP_BINARY"));
    (s "Extension", OObject [s "websockets"; s "extensions"; s "base"] (s "Extension"));
    (s "ProtocolError", OObject [s "websockets"; s "exceptions"] (s "ProtocolError"));
    (s "PayloadTooBig", OObject [s "websockets"; s "exceptions"] (s "PayloadTooBig"));
    (s "InvalidState", OObject [s "websockets"; s "exceptions"] (s "InvalidState"));
    (s "ConnectionClosedOK", OObject [s "websockets"; s "exceptions"] (s "ConnectionClosedOK"));
    (s "ConnectionClosedError", OObject [s "websockets"; s "exceptions"] (s "ConnectionClosedError"));
    (s "ConnectionClosed", OObject [s "websockets"; s "exceptions"] (s "ConnectionClosed"));
    (s "Headers", OObject [s "websockets"; s "datastructures"] (s "Headers"));
    (s "cast", OObject [s "typing"] (s "cast")); (s "Union", OObject [s "typing"] (s "Union"));
    (s "Optional", OObject [s "typing"] (s "Optional")); (s "Mapping", OObject [s "typing"] (s "Mapping"));
    (s "List", OObject [s "typing"] (s "List")); (s "Iterable", OObject [s "typing"] (s "Iterable"));
    (s "Dict", OObject [s "typing"] (s "Dict")); (s "Deque", OObject [s "typing"] (s "Deque"));
    (s "Awaitable", OObject [s "typing"] (s "Awaitable"));
    (s "AsyncIterator", OObject [s "typing"] (s "AsyncIterator"));
    (s "AsyncIterable", OObject [s "typing"] (s "AsyncIterable")); (s "Any", OObject [s "typing"] (s "Any"));
    (s "warnings", OModule [s "warnings"]); (s "sys", OModule [s "sys"]); (s "struct", OModule [s "struct"]);
    (s "random", OModule [s "random"]); (s "logging", OModule [s "logging"]); (s "enum", OModule [s "enum"]);
    (s "collections", OModule [s "collections"]); (s "codecs", OModule [s "codecs"]);
    (s "asyncio", OModule [s "asyncio"]);
    (s "__builtins__", OObject [s "websockets"; s "legacy"; s "protocol"] (s "__builtins__"));
    (s "__cached__", OObject [s "websockets"; s "legacy"; s "protocol"] (s "__cached__"));
    (s "__file__", OObject [s "websockets"; s "legacy"; s "protocol"] (s "__file__"));
    (s "__spec__", OObject [s "websockets"; s "legacy"; s "protocol"] (s "__spec__"));
    (s "__loader__", OObject [s "websockets"; s "legacy"; s "protocol"] (s "__loader__"));
    (s "__package__", OObject [s "websockets"; s "legacy"; s "protocol"] (s "__package__"));
    (s "__doc__", OObject [s "websockets"; s "legacy"; s "protocol"] (s "__doc__"));
    (s "__name__", OObject [s "websockets"; s "legacy"; s "protocol"] (s "__name__"))];
  so_lazy := None;
  so_after := [] |}.

(* src/websockets/legacy/server.py *)
Definition source_websockets_legacy_server : source := {|
  so_package := false;
  so_before := [(s "unix_serve", OObject [s "websockets"; s "legacy"; s "server"] (s "unix_serve"));
    (s "serve", OObject [s "websockets"; s "legacy"; s "server"] (s "serve"));
    (s "Serve", OObject [s "websockets"; s "legacy"; s "server"] (s "Serve"));
    (s "WebSocketServer", OObject [s "websockets"; s "legacy"; s "server"] (s "WebSocketServer"));
    (s "WebSocketServerProtocol", OObject [s "websockets"; s "legacy"; s "server"] (s "WebSocketServerProtocol"));
    (s "HTTPResponse", OObject [s "websockets"; s "legacy"; s "server"] (s "HTTPResponse"));
    (s "HeadersLikeOrCallable", OObject [s "websockets"; s "legacy"; s "server"] (s "HeadersLikeOrCallable"));
    (s "logger", OObject [s "websockets"; s "legacy"; s "server"] (s "logger"));
    (s "__all__", OObject [s "websockets"; s "legacy"; s "server"] (s "__all__"));
    (s "WebSocketCommonProtocol", OObject [s "websockets"; s "legacy"; s "protocol"] (s "WebSocketCommonProtocol"));
    (s "read_request", OObject [s "websockets"; s "legacy"; s "http"] (s "read_request"));
    (s "check_request", OObject [s "websockets"; s "legacy"; s "handshake"] (s "check_request"));
    (s "build_response", OObject [s "websockets"; s "legacy"; s "handshake"] (s "build_response"));
    (s "Subprotocol", OObject [s "websockets"; s "typing"] (s "Subprotocol"));
    (s "Origin", OObject [s "websockets"; s "typing"] (s "Origin"));
    (s "ExtensionHeader", OObject [s "websockets"; s "typing"] (s "ExtensionHeader"));
    (s "USER_AGENT", OObject [s "websockets"; s "http"] (s "USER_AGENT"));
    (s "parse_subprotocol", OObject [s "websockets"; s "headers"] (s "parse_subprotocol"));
    (s "parse_extension", OObject [s "websockets"; s "headers"] (s "parse_extension"));
    (s "build_extension", OObject [s "websockets"; s "headers"] (s "build_extension"));
    (s "enable_server_permessage_deflate", OObject [s "websockets"; s "extensions"; s "permessage_deflate"] (s "enable_server_permessage_deflate"));
    (s "ServerExtensionFactory", OObject [s "websockets"; s "extensions"; s "base"] (s "ServerExtensionFactory"));
    (s "Extension", OObject [s "websockets"; s "extensions"; s "base"] (s "Extension"));
    (s "NegotiationError", OObject [s "websockets"; s "exceptions"] (s "NegotiationError"));
    (s "InvalidUpgrade", OObject [s "websockets"; s "exceptions"] (s "InvalidUpgrade"));
    (s "InvalidOrigin", OObject [s "websockets"; s "exceptions"] (s "InvalidOrigin"));
    (s "InvalidMessage", OObject [s "websockets"; s "exceptions"] (s "InvalidMessage"));
    (s "InvalidHeader", OObject [s "websockets"; s "exceptions"] (s "InvalidHeader"));
    (s "InvalidHandshake", OObject [s "websockets"; s "exceptions"] (s "InvalidHandshake"));
    (s "AbortHandshake", OObject [s "websockets"; s "exceptions"] (s "AbortHandshake"));
    (s "MultipleValuesError", OObject [s "websockets"; s "datastructures"] (s "MultipleValuesError"));
    (s "HeadersLike", OObject [s "websockets"; s "datastructures"] (s "HeadersLike"));
    (s "Headers", OObject [s "websockets"; s "datastructures"] (s "Headers"));
    (s "cast", OObject [s "typing"] (s "cast")); (s "Union", OObject [s "typing"] (s "Union"));
    (s "Type", OObject [s "typing"] (s "Type")); (s "Tuple", OObject [s "typing"] (s "Tuple"));
    (s "Set", OObject [s "typing"] (s "Set")); (s "Sequence", OObject [s "typing"] (s "Sequence"));
    (s "Optional", OObject [s "typing"] (s "Optional")); (s "List", OObject [s "typing"] (s "List"));
    (s "Generator", OObject [s "typing"] (s "Generator")); (s "Callable", OObject [s "typing"] (s "Callable"));
    (s "Awaitable", OObject [s "typing"] (s "Awaitable")); (s "Any", OObject [s "typing"] (s "Any"));
    (s "TracebackType", OObject [s "types"] (s "TracebackType")); (s "warnings", OModule [s "warnings"]);
    (s "sys", OModule [s "sys"]); (s "socket", OModule [s "socket"]); (s "logging", OModule [s "logging"]);
    (s "http", OModule [s "http"]); (s "functools", OModule [s "functools"]); (s "email", OModule [s "email"]);
    (s "collections", OModule [s "collections"]); (s "asyncio", OModule [s "asyncio"]);
    (s "__builtins__", OObject [s "websockets"; s "legacy"; s "server"] (s "__builtins__"));
    (s "__cached__", OObject [s "websockets"; s "legacy"; s "server"] (s "__cached__"));
    (s "__file__", OObject [s "websockets"; s "legacy"; s "server"] (s "__file__"));
    (s "__spec__", OObject [s "websockets"; s "legacy"; s "server"] (s "__spec__"));
    (s "__loader__", OObject [s "websockets"; s "legacy"; s "server"] (s "__loader__"));
    (s "__package__", OObject [s "websockets"; s "legacy"; s "server"] (s "__package__"));
    (s "__doc__", OObject [s "websockets"; s "legacy"; s "server"] (s "__doc__"));
    (s "__name__", OObject [s "websockets"; s "legacy"; s "server"] (s "__name__"))];
  so_lazy := None;
  so_after := [] |}.

(* src/websockets/server.py, lazy_import() on lines 40-48 *)
Definition source_websockets_server : source := {|
  so_package := false;
  so_before := [(s "accept_key", OObject [s "websockets"; s "utils"] (s "accept_key"));
    (s "UpgradeProtocol", OObject [s "websockets"; s "typing"] (s "UpgradeProtocol"));
    (s "Subprotocol", OObject [s "websockets"; s "typing"] (s "Subprotocol"));
    (s "Origin", OObject [s "websockets"; s "typing"] (s "Origin"));
    (s "ExtensionHeader", OObject [s "websockets"; s "typing"] (s "ExtensionHeader"));
    (s "ConnectionOption", OObject [s "websockets"; s "typing"] (s "ConnectionOption"));
    (s "lazy_import", OObject [s "websockets"; s "imports"] (s "lazy_import"));
    (s "Response", OObject [s "websockets"; s "http11"] (s "Response"));
    (s "Request", OObject [s "websockets"; s "http11"] (s "Request"));
    (s "USER_AGENT", OObject [s "websockets"; s "http"] (s "USER_AGENT"));
    (s "parse_upgrade", OObject [s "websockets"; s "headers"] (s "parse_upgrade"));
    (s "parse_subprotocol", OObject [s "websockets"; s "headers"] (s "parse_subprotocol"));
    (s "parse_extension", OObject [s "websockets"; s "headers"] (s "parse_extension"));
    (s "parse_connection", OObject [s "websockets"; s "headers"] (s "parse_connection"));
    (s "build_extension", OObject [s "websockets"; s "headers"] (s "build_extension"));
    (s "ServerExtensionFactory", OObject [s "websockets"; s "extensions"; s "base"] (s "ServerExtensionFactory"));
    (s "Extension", OObject [s "websockets"; s "extensions"; s "base"] (s "Extension"));
    (s "NegotiationError", OObject [s "websockets"; s "exceptions"] (s "NegotiationError"));
    (s "InvalidUpgrade", OObject [s "websockets"; s "exceptions"] (s "InvalidUpgrade"));
    (s "InvalidOrigin", OObject [s "websockets"; s "exceptions"] (s "InvalidOrigin"));
    (s "InvalidHeaderValue", OObject [s "websockets"; s "exceptions"] (s "InvalidHeaderValue"));
    (s "InvalidHeader", OObject [s "websockets"; s "exceptions"] (s "InvalidHeader"));
    (s "InvalidHandshake", OObject [s "websockets"; s "exceptions"] (s "InvalidHandshake"));
    (s "MultipleValuesError", OObject [s "websockets"; s "datastructures"] (s "MultipleValuesError"));
    (s "HeadersLike", OObject [s "websockets"; s "datastructures"] (s "HeadersLike"));
    (s "Headers", OObject [s "websockets"; s "datastructures"] (s "Headers"));
    (s "Connection", OObject [s "websockets"; s "connection"] (s "Connection"));
    (s "SERVER", OObject [s "websockets"; s "connection"] (s "SERVER"));
    (s "OPEN", OObject [s "websockets"; s "connection"] (s "OPEN"));
    (s "CONNECTING", OObject [s "websockets"; s "connection"] (s "CONNECTING"));
    (s "cast", OObject [s "typing"] (s "cast")); (s "Union", OObject [s "typing"] (s "Union"));
    (s "Tuple", OObject [s "typing"] (s "Tuple")); (s "Sequence", OObject [s "typing"] (s "Sequence"));
    (s "Optional", OObject [s "typing"] (s "Optional")); (s "List", OObject [s "typing"] (s "List"));
    (s "Generator", OObject [s "typing"] (s "Generator")); (s "Callable", OObject [s "typing"] (s "Callable"));
    (s "logging", OModule [s "logging"]); (s "http", OModule [s "http"]); (s "email", OModule [s "email"]);
    (s "collections", OModule [s "collections"]); (s "binascii", OModule [s "binascii"]);
    (s "base64", OModule [s "base64"]);
    (s "__builtins__", OObject [s "websockets"; s "server"] (s "__builtins__"));
    (s "__cached__", OObject [s "websockets"; s "server"] (s "__cached__"));
    (s "__file__", OObject [s "websockets"; s "server"] (s "__file__"));
    (s "__spec__", OObject [s "websockets"; s "server"] (s "__spec__"));
    (s "__loader__", OObject [s "websockets"; s "server"] (s "__loader__"));
    (s "__package__", OObject [s "websockets"; s "server"] (s "__package__"));
    (s "__doc__", OObject [s "websockets"; s "server"] (s "__doc__"));
    (s "__name__", OObject [s "websockets"; s "server"] (s "__name__"))];
  so_lazy := Some ([(s "serve", s ".legacy.server"); (s "unix_serve", s ".legacy.server");
    (s "WebSocketServerProtocol", s ".legacy.server"); (s "WebSocketServer", s ".legacy.server")],
    []);
  so_after := [(s "ServerConnection", OObject [s "websockets"; s "server"] (s "ServerConnection"));
    (s "HeadersLikeOrCallable", OObject [s "websockets"; s "server"] (s "HeadersLikeOrCallable"));
    (s "logger", OObject [s "websockets"; s "server"] (s "logger"));
    (s "__all__", OObject [s "websockets"; s "server"] (s "__all__"))] |}.

(* src/websockets/streams.py *)
Definition source_websockets_streams : source := {|
  so_package := false;
  so_before := [(s "StreamReader", OObject [s "websockets"; s "streams"] (s "StreamReader"));
    (s "Generator", OObject [s "typing"] (s "Generator"));
    (s "__builtins__", OObject [s "websockets"; s "streams"] (s "__builtins__"));
    (s "__cached__", OObject [s "websockets"; s "streams"] (s "__cached__"));
    (s "__file__", OObject [s "websockets"; s "streams"] (s "__file__"));
    (s "__spec__", OObject [s "websockets"; s "streams"] (s "__spec__"));
    (s "__loader__", OObject [s "websockets"; s "streams"] (s "__loader__"));
    (s "__package__", OObject [s "websockets"; s "streams"] (s "__package__"));
    (s "__doc__", OObject [s "websockets"; s "streams"] (s "__doc__"));
    (s "__name__", OObject [s "websockets"; s "streams"] (s "__name__"))];
  so_lazy := None;
  so_after := [] |}.

(* src/websockets/typing.py *)
Definition source_websockets_typing : source := {|
  so_package := false;
  so_before := [(s "UpgradeProtocol", OObject [s "websockets"; s "typing"] (s "UpgradeProtocol"));
    (s "ConnectionOption", OObject [s "websockets"; s "typing"] (s "ConnectionOption"));
    (s "Subprotocol", OObject [s "websockets"; s "typing"] (s "Subprotocol"));
    (s "ExtensionHeader__doc__", OObject [s "websockets"; s "typing"] (s "ExtensionHeader__doc__"));
    (s "ExtensionHeader", OObject [s "websockets"; s "typing"] (s "ExtensionHeader"));
    (s "ExtensionParameter__doc__", OObject [s "websockets"; s "typing"] (s "ExtensionParameter__doc__"));
    (s "ExtensionParameter", OObject [s "websockets"; s "typing"] (s "ExtensionParameter"));
    (s "ExtensionName", OObject [s "websockets"; s "typing"] (s "ExtensionName"));
    (s "Origin", OObject [s "websockets"; s "typing"] (s "Origin"));
    (s "Data__doc__", OObject [s "websockets"; s "typing"] (s "Data__doc__"));
    (s "Data", OObject [s "websockets"; s "typing"] (s "Data"));
    (s "__all__", OObject [s "websockets"; s "typing"] (s "__all__"));
    (s "Union", OObject [s "typing"] (s "Union")); (s "Tuple", OObject [s "typing"] (s "Tuple"));
    (s "Optional", OObject [s "typing"] (s "Optional")); (s "NewType", OObject [s "typing"] (s "NewType"));
    (s "List", OObject [s "typing"] (s "List"));
    (s "__builtins__", OObject [s "websockets"; s "typing"] (s "__builtins__"));
    (s "__cached__", OObject [s "websockets"; s "typing"] (s "__cached__"));
    (s "__file__", OObject [s "websockets"; s "typing"] (s "__file__"));
    (s "__spec__", OObject [s "websockets"; s "typing"] (s "__spec__"));
    (s "__loader__", OObject [s "websockets"; s "typing"] (s "__loader__"));
    (s "__package__", OObject [s "websockets"; s "typing"] (s "__package__"));
    (s "__doc__", OObject [s "websockets"; s "typing"] (s "__doc__"));
    (s "__name__", OObject [s "websockets"; s "typing"] (s "__name__"))];
  so_lazy := None;
  so_after := [] |}.

(* src/websockets/uri.py *)
Definition source_websockets_uri : source := {|
  so_package := false;
  so_before := [(s "parse_uri", OObject [s "websockets"; s "uri"] (s "parse_uri"));
    (s "DELIMS", OObject [s "websockets"; s "uri"] (s "DELIMS"));
    (s "WebSocketURI", OObject [s "websockets"; s "uri"] (s "WebSocketURI"));
    (s "__all__", OObject [s "websockets"; s "uri"] (s "__all__"));
    (s "InvalidURI", OObject [s "websockets"; s "exceptions"] (s "InvalidURI"));
    (s "Tuple", OObject [s "typing"] (s "Tuple")); (s "Optional", OObject [s "typing"] (s "Optional"));
    (s "NamedTuple", OObject [s "typing"] (s "NamedTuple")); (s "urllib", OModule [s "urllib"]);
    (s "__builtins__", OObject [s "websockets"; s "uri"] (s "__builtins__"));
    (s "__cached__", OObject [s "websockets"; s "uri"] (s "__cached__"));
    (s "__file__", OObject [s "websockets"; s "uri"] (s "__file__"));
    (s "__spec__", OObject [s "websockets"; s "uri"] (s "__spec__"));
    (s "__loader__", OObject [s "websockets"; s "uri"] (s "__loader__"));
    (s "__package__", OObject [s "websockets"; s "uri"] (s "__package__"));
    (s "__doc__", OObject [s "websockets"; s "uri"] (s "__doc__"));
    (s "__name__", OObject [s "websockets"; s "uri"] (s "__name__"))];
  so_lazy := None;
  so_after := [] |}.

(* src/websockets/utils.py *)
Definition source_websockets_utils : source := {|
  so_package := false;
  so_before := [(s "apply_mask", OObject [s "websockets"; s "utils"] (s "apply_mask"));
    (s "accept_key", OObject [s "websockets"; s "utils"] (s "accept_key"));
    (s "generate_key", OObject [s "websockets"; s "utils"] (s "generate_key"));
    (s "GUID", OObject [s "websockets"; s "utils"] (s "GUID"));
    (s "__all__", OObject [s "websockets"; s "utils"] (s "__all__")); (s "secrets", OModule [s "secrets"]);
    (s "itertools", OModule [s "itertools"]); (s "hashlib", OModule [s "hashlib"]);
    (s "base64", OModule [s "base64"]);
    (s "__builtins__", OObject [s "websockets"; s "utils"] (s "__builtins__"));
    (s "__cached__", OObject [s "websockets"; s "utils"] (s "__cached__"));
    (s "__file__", OObject [s "websockets"; s "utils"] (s "__file__"));
    (s "__spec__", OObject [s "websockets"; s "utils"] (s "__spec__"));
    (s "__loader__", OObject [s "websockets"; s "utils"] (s "__loader__"));
    (s "__package__", OObject [s "websockets"; s "utils"] (s "__package__"));
    (s "__doc__", OObject [s "websockets"; s "utils"] (s "__doc__"));
    (s "__name__", OObject [s "websockets"; s "utils"] (s "__name__"))];
  so_lazy := None;
  so_after := [] |}.

(* src/websockets/version.py *)
Definition source_websockets_version : source := {|
  so_package := false;
  so_before := [(s "version", OObject [s "websockets"; s "version"] (s "version"));
    (s "__builtins__", OObject [s "websockets"; s "version"] (s "__builtins__"));
    (s "__cached__", OObject [s "websockets"; s "version"] (s "__cached__"));
    (s "__file__", OObject [s "websockets"; s "version"] (s "__file__"));
    (s "__spec__", OObject [s "websockets"; s "version"] (s "__spec__"));
    (s "__loader__", OObject [s "websockets"; s "version"] (s "__loader__"));
    (s "__package__", OObject [s "websockets"; s "version"] (s "__package__"));
    (s "__doc__", OObject [s "websockets"; s "version"] (s "__doc__"));
    (s "__name__", OObject [s "websockets"; s "version"] (s "__name__"))];
  so_lazy := None;
  so_after := [] |}.

(* src/websockets: the files *)
Definition table : list (path * source) := [
  ([s "websockets"], source_websockets);
  ([s "websockets"; s "__main__"], source_websockets_main);
  ([s "websockets"; s "client"], source_websockets_client);
  ([s "websockets"; s "connection"], source_websockets_connection);
  ([s "websockets"; s "datastructures"], source_websockets_datastructures);
  ([s "websockets"; s "exceptions"], source_websockets_exceptions);
  ([s "websockets"; s "extensions"], source_websockets_extensions);
  ([s "websockets"; s "extensions"; s "base"], source_websockets_extensions_base);
  ([s "websockets"; s "extensions"; s "permessage_deflate"], source_websockets_extensions_permessage_deflate);
  ([s "websockets"; s "frames"], source_websockets_frames);
  ([s "websockets"; s "headers"], source_websockets_headers);
  ([s "websockets"; s "http"], source_websockets_http);
  ([s "websockets"; s "http11"], source_websockets_http11);
  ([s "websockets"; s "imports"], source_websockets_imports);
  ([s "websockets"; s "legacy"], source_websockets_legacy);
  ([s "websockets"; s "legacy"; s "auth"], source_websockets_legacy_auth);
  ([s "websockets"; s "legacy"; s "client"], source_websockets_legacy_client);
  ([s "websockets"; s "legacy"; s "framing"], source_websockets_legacy_framing);
  ([s "websockets"; s "legacy"; s "handshake"], source_websockets_legacy_handshake);
  ([s "websockets"; s "legacy"; s "http"], source_websockets_legacy_http);
  ([s "websockets"; s "legacy"; s "protocol"], source_websockets_legacy_protocol);
  ([s "websockets"; s "legacy"; s "server"], source_websockets_legacy_server);
  ([s "websockets"; s "server"], source_websockets_server);
  ([s "websockets"; s "streams"], source_websockets_streams);
  ([s "websockets"; s "typing"], source_websockets_typing);
  ([s "websockets"; s "uri"], source_websockets_uri);
  ([s "websockets"; s "utils"], source_websockets_utils);
  ([s "websockets"; s "version"], source_websockets_version)].
Fixpoint find_file (l : list (path * source)) (p : path) : option source :=
  match l with [] => None | (q, x) :: r => if path_eqb q p then Some x else find_file r p end.
Definition websockets_files : path -> option source := find_file table.

(* src/websockets/__init__.py 5-49: __all__ *)
Definition websockets_all : list str :=
  [s "AbortHandshake"; s "basic_auth_protocol_factory"; s "BasicAuthWebSocketServerProtocol";
   s "ClientConnection"; s "connect"; s "ConnectionClosed"; s "ConnectionClosedError"; s "ConnectionClosedOK";
   s "Data"; s "DuplicateParameter"; s "ExtensionHeader"; s "ExtensionParameter"; s "InvalidHandshake";
   s "InvalidHeader"; s "InvalidHeaderFormat"; s "InvalidHeaderValue"; s "InvalidMessage"; s "InvalidOrigin";
   s "InvalidParameterName"; s "InvalidParameterValue"; s "InvalidState"; s "InvalidStatusCode";
   s "InvalidUpgrade"; s "InvalidURI"; s "NegotiationError"; s "Origin"; s "parse_uri"; s "PayloadTooBig";
   s "ProtocolError"; s "RedirectHandshake"; s "SecurityError"; s "serve"; s "ServerConnection";
   s "Subprotocol"; s "unix_connect"; s "unix_serve"; s "WebSocketClientProtocol";
   s "WebSocketCommonProtocol"; s "WebSocketException"; s "WebSocketProtocolError"; s "WebSocketServer";
   s "WebSocketServerProtocol"; s "WebSocketURI"].
