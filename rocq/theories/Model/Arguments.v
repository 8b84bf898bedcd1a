(* Model of the arguments of connect() and serve(), in src/websockets/legacy/client.py and
   src/websockets/legacy/server.py, and of the arguments of the protocols that they create, in these files
   and in src/websockets/legacy/protocol.py.  Durations are whole numbers of seconds.  Missing: loop,
   read_limit and write_limit, host, port and secure (see Connect.v for connect()), create_protocol and
   klass: the protocols are those of the library. *)
From Verif Require Import Base.Prelude Model.Datastructures Model.Handshake Model.Server Model.Client Model.Uri Model.PermessageDeflate Model.Compression.
From Verif Require Model.LegacyProtocol.
Local Open Scope N_scope.

(* Arguments shared by connect(), serve(), WebSocketClientProtocol and WebSocketServerProtocol *)
Record common_args : Type := {
  a_ping_interval : option N;
  a_ping_timeout : option N;
  a_close_timeout : option N;
  a_max_size : option Z;
  a_max_queue : option N;
  a_legacy_recv : bool;
  a_timeout : option N }.

(* legacy/client.py 379-389, legacy/server.py 856-866, legacy/protocol.py 198-211: default values *)
Definition default_args : common_args := {|
  a_ping_interval := Some 20;
  a_ping_timeout := Some 20;
  a_close_timeout := None;
  a_max_size := Some (2 ^ 20)%Z;
  a_max_queue := Some (2 ^ 5);
  a_legacy_recv := false;
  a_timeout := None |}.

(* legacy/protocol.py 213-242: __init__ of WebSocketCommonProtocol.  is_client is a class attribute;
   can_write_eof depends on the transport, and key is where masking keys come from. *)
Definition protocol_init (client can_write_eof : bool) (key : nat -> bytes) (a : common_args) : LegacyProtocol.config :=
  let timeout := match a_timeout a with None => 10 | Some t => t end in
  let close_timeout := match a_close_timeout a with None => timeout | Some t => t end in
  {| LegacyProtocol.c_client := client;
     LegacyProtocol.c_max_size := a_max_size a;
     LegacyProtocol.c_max_queue := a_max_queue a;
     LegacyProtocol.c_close_timeout := Some close_timeout;
     LegacyProtocol.c_ping_interval := a_ping_interval a;
     LegacyProtocol.c_ping_timeout := a_ping_timeout a;
     LegacyProtocol.c_legacy_recv := a_legacy_recv a;
     LegacyProtocol.c_can_write_eof := can_write_eof;
     LegacyProtocol.c_key := key |}.

(* legacy/client.py 397-404 and 432-445: the arguments that __init__ of Connect gives to the protocol *)
Definition connect_common (a : common_args) : common_args :=
  let timeout := match a_timeout a with None => 10 | Some t => t end in
  let close_timeout := match a_close_timeout a with None => timeout | Some t => t end in
  {| a_ping_interval := a_ping_interval a;
     a_ping_timeout := a_ping_timeout a;
     a_close_timeout := Some close_timeout;
     a_max_size := a_max_size a;
     a_max_queue := a_max_queue a;
     a_legacy_recv := a_legacy_recv a;
     a_timeout := None |}.

(* legacy/server.py 881-888 and 911-926: the same for Serve *)
Definition serve_common (a : common_args) : common_args :=
  let timeout := match a_timeout a with None => 10 | Some t => t end in
  let close_timeout := match a_close_timeout a with None => timeout | Some t => t end in
  {| a_ping_interval := a_ping_interval a;
     a_ping_timeout := a_ping_timeout a;
     a_close_timeout := Some close_timeout;
     a_max_size := a_max_size a;
     a_max_queue := a_max_queue a;
     a_legacy_recv := a_legacy_recv a;
     a_timeout := None |}.

Section Arguments.
Context {zl : zlib} {E : Type} (name_of : E -> str) (mk : pmd zl -> E).

(* legacy/client.py 390-394: the arguments of connect() about the opening handshake *)
Record client_args : Type := {
  ca_compression : option str;
  ca_origin : option str;
  ca_extensions : option (list (client_factory E));
  ca_subprotocols : option (list str);
  ca_extra_headers : option (list (str * str)) }.
Definition default_client_args : client_args := {|
  ca_compression := Some (s "deflate");
  ca_origin := None;
  ca_extensions := None;
  ca_subprotocols := None;
  ca_extra_headers := None |}.

(* legacy/client.py 427-430 and 446-449: what the protocol created by connect() uses; __init__ of
   WebSocketClientProtocol (58-71) keeps it unchanged *)
Definition connect_handshake (wsuri : ws_uri) (a : client_args) : result (client_config E) :=
  let! extensions := connect_extensions name_of mk (ca_compression a) (ca_extensions a) in
  Ok {| cc_wsuri := wsuri;
        cc_origin := ca_origin a;
        cc_extensions := extensions;
        cc_subprotocols := ca_subprotocols a;
        cc_extra_headers := ca_extra_headers a |}.

(* legacy/server.py 867-871: the arguments of serve() about the opening handshake.  process_request
   and select_subprotocol are arguments of the model of the handshake, in LegacyHandshake.v. *)
Record server_args : Type := {
  sa_compression : option str;
  sa_origins : option (list (option str));
  sa_extensions : option (list (server_factory E));
  sa_subprotocols : option (list str);
  sa_extra_headers : str -> headers -> option (list (str * str)) }.
Definition default_server_args : server_args := {|
  sa_compression := Some (s "deflate");
  sa_origins := None;
  sa_extensions := None;
  sa_subprotocols := None;
  sa_extra_headers := fun _ _ => None |}.

(* legacy/server.py 93-96: "" is replaced by None in __init__ of WebSocketServerProtocol *)
Definition protocol_origins (origins : option (list (option str))) : option (list (option str)) :=
  match origins with
  | Some l =>
      if existsb (fun o => match o with Some [] => true | _ => false end) l
      then Some (map (fun o => match o with Some [] => None | _ => o end) l)
      else Some l
  | None => None
  end.

(* legacy/server.py 906-909 and 927-932: what the protocol created by serve() uses, after 97-105 *)
Definition serve_handshake (a : server_args) : result (server_config E) :=
  let! extensions := serve_extensions name_of mk (sa_compression a) (sa_extensions a) in
  Ok {| sc_origins := protocol_origins (sa_origins a);
        sc_extensions := extensions;
        sc_subprotocols := sa_subprotocols a;
        sc_extra_headers := sa_extra_headers a |}.
End Arguments.
Arguments client_args : clear implicits. Arguments server_args : clear implicits.
