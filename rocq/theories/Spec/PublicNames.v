(* The names which are documented as available in websockets, and the modules which define them. *)
From Verif Require Import Base.Prelude.
Local Open Scope N_scope.

Definition at_legacy (m : String.string) : list str := [s "websockets"; s "legacy"; s m].
Definition at_top (m : String.string) : list str := [s "websockets"; s m].

(* available as websockets.<name>: objects *)
Definition public_names : list (list str * list str) := [
  (at_legacy "client", [s "connect"; s "unix_connect"; s "WebSocketClientProtocol"]);
  (at_legacy "server", [s "serve"; s "unix_serve"; s "WebSocketServerProtocol"; s "WebSocketServer"]);
  (at_legacy "protocol", [s "WebSocketCommonProtocol"]);
  (at_legacy "auth", [s "basic_auth_protocol_factory"; s "BasicAuthWebSocketServerProtocol"]);
  (at_top "client", [s "ClientConnection"]);
  (at_top "server", [s "ServerConnection"]);
  (at_top "datastructures", [s "Headers"; s "MultipleValuesError"]);
  (at_top "exceptions", [
    s "WebSocketException"; s "ConnectionClosed"; s "ConnectionClosedError"; s "ConnectionClosedOK"; s "InvalidHandshake";
    s "SecurityError"; s "InvalidMessage"; s "InvalidHeader"; s "InvalidHeaderFormat"; s "InvalidHeaderValue";
    s "InvalidOrigin"; s "InvalidUpgrade"; s "InvalidStatusCode"; s "NegotiationError"; s "DuplicateParameter";
    s "InvalidParameterName"; s "InvalidParameterValue"; s "AbortHandshake"; s "RedirectHandshake"; s "InvalidState";
    s "InvalidURI"; s "PayloadTooBig"; s "ProtocolError"; s "WebSocketProtocolError"]);
  (at_top "typing", [s "Data"; s "Origin"; s "ExtensionHeader"; s "ExtensionParameter"; s "Subprotocol"]);
  (at_top "uri", [s "parse_uri"; s "WebSocketURI"])].

(* available as websockets.<name>: modules, without and with a DeprecationWarning *)
Definition public_modules : list str := [s "auth"; s "protocol"].
Definition deprecated_modules : list str := [s "framing"; s "handshake"].

(* available as websockets.client.<name>, etc. *)
Definition client_names : list (list str * list str) :=
  [(at_legacy "client", [s "connect"; s "unix_connect"; s "WebSocketClientProtocol"])].
Definition server_names : list (list str * list str) :=
  [(at_legacy "server", [s "serve"; s "unix_serve"; s "WebSocketServerProtocol"; s "WebSocketServer"])].
Definition http_names : list (list str * list str) := [(at_top "datastructures", [s "Headers"; s "MultipleValuesError"])].
Definition deprecated_http_names : list (list str * list str) := [(at_legacy "http", [s "read_request"; s "read_response"])].

Definition defined (l : list (list str * list str)) (m : list str) (name : str) : Prop :=
  exists names, In (m, names) l /\ In name names.
