(* Model of the opening handshake of src/websockets/legacy: handshake.py, http.py, and the
   handshakes of server.py and client.py.  The functions of legacy/http.py are those of
   http11.py, and most of those of legacy/server.py and legacy/client.py are those of server.py
   and client.py; they aren't repeated.  Logging isn't modelled. *)
From Verif Require Import Base.Prelude Base.PyInt Base.Utf8 Base.Base64 Model.Utils
  Model.Datastructures Model.Headers Model.Streams Model.Http11 Model.Handshake Model.Server
  Model.Client.

(* legacy/handshake.py 75-91 and 148-164: the checks of the Connection and Upgrade headers.
   Unlike server.py 173-190, the value given to InvalidUpgrade is a string even when there is
   no value; the separator for the Connection header differs in check_response. *)
Definition legacy_check_upgrade (separator : str) (h : headers) : result unit :=
  let! connection := parse_all parse_connection (headers_get_all h (s "Connection")) in
  if negb (existsb (fun v => str_eqb (lower v) (s "upgrade")) connection) then
    Raise (InvalidUpgrade (s "Connection") (Some (join separator connection)))
  else
    let! upgrade := parse_all parse_upgrade (headers_get_all h (s "Upgrade")) in
    match upgrade with
    | [v] => if str_eqb (lower v) (s "websocket") then Ok tt
             else Raise (InvalidUpgrade (s "Upgrade") (Some (join (s ", ") upgrade)))
    | _ => Raise (InvalidUpgrade (s "Upgrade") (Some (join (s ", ") upgrade)))
    end.

(* legacy/handshake.py 60-119: check_request *)
Definition check_request (h : headers) : result str :=
  let! _ := legacy_check_upgrade (s ", ") h in
  let! key := request_key h in
  let! _ := request_version h in
  Ok key.

(* legacy/handshake.py 133-179: check_response *)
Definition check_response (key : str) (h : headers) : result unit :=
  let! _ := legacy_check_upgrade (s " ") h in
  check_accept key h.

(* legacy/http.py 43-87 with legacy/server.py 233-258 (read_http_request): the request at the
   start of a stream that ends after [data], or isn't needed beyond it.  read_request does the
   same as Request.parse (http11.py), except that StreamReader.readline raises ValueError for a
   line longer than the limit of the stream (32 KiB; see StreamLimit.v), where Request.parse raises SecurityError;
   here all exceptions are replaced by InvalidMessage. *)
Definition read_http_request (data : bytes) : result request :=
  match run (S := unit) parse_request {| r_buffer := data; r_eof := true |} tt with
  | ODone req _ _ => Ok req
  | _ => Raise (InvalidMessage (s "did not receive a valid HTTP request"))
  end.

(* legacy/server.py: HTTPResponse, with the headers as (name, value) pairs *)
Definition http_response : Type := (Z * list (str * str) * bytes)%type.

(* how handshake ends: AbortHandshake (exceptions.py 298-318), another exception, or a
   response with status 101 and these headers *)
Inductive handshake_end : Type :=
| HsAbort (r : http_response)
| HsRaise (e : exn)
| HsOpen (h : headers).

Section Server.
Context {E : Type} (env : environment) (cfg : server_config E).
(* process_request; whether the server is serving (legacy/server.py 677-687) *)
Context (hook : str -> headers -> result (option http_response)) (serving : bool).

(* legacy/server.py 549-590, after process_request: checks of the request, and the headers of
   the response.  build_response is legacy/handshake.py 122-131.  Also: the values of
   self.origin, self.extensions and self.subprotocol. *)
Definition legacy_accept (req : request) : result (headers * (option str * list E * option str)) :=
  let h := req_headers req in
  let! key := check_request h in
  let! origin := process_origin cfg h in
  let! (extensions_header, extensions) := process_extensions cfg h in
  let! protocol_header := process_subprotocol env cfg h in
  let! resp := accept_response env cfg req key extensions_header protocol_header in
  Ok (resp_headers resp, (origin, extensions, protocol_header)).

(* legacy/server.py 507-596: handshake, once the request is read *)
Definition legacy_handshake (req : request) : handshake_end :=
  match hook (req_path req) (req_headers req) with
  | Raise e => HsRaise e
  | Ok early_response =>
    let early_response :=
      if serving then early_response
      else Some (503%Z, [], map n2b (s "Server is shutting down." ++ nl)) in
    match early_response with
    | Some r => HsAbort r
    | None =>
      match legacy_accept req with
      | Raise e => HsRaise e
      | Ok (h, _) => HsOpen h
      end
    end
  end.

(* legacy/server.py 148-187: status, headers and body for an exception raised by handshake *)
Definition legacy_error (e : exn) : result http_response :=
  match e with
  | InvalidOrigin _ =>
      let! body := utf8_encode (s "Failed to open a WebSocket connection: " ++ exn_str e ++ s "." ++ nl) in
      Ok (403%Z, [], body)
  | InvalidUpgrade _ _ =>
      let! body := utf8_encode (s "Failed to open a WebSocket connection: " ++ exn_str e ++ s "." ++ nl ++ nl
             ++ s "You cannot access a WebSocket server directly "
             ++ s "with a browser. You need a WebSocket client." ++ nl) in
      Ok (426%Z, [(s "Upgrade", s "websocket")], body)
  | _ =>
      if is_invalid_handshake e then
        let! body := utf8_encode (s "Failed to open a WebSocket connection: " ++ exn_str e ++ s "." ++ nl) in
        Ok (400%Z, [], body)
      else
        Ok (500%Z, [], map n2b (s "Failed to open a WebSocket connection." ++ nl
               ++ s "See server log for more information." ++ nl))
  end.

(* legacy/server.py 184-193: the response to a request that doesn't open a connection *)
Definition legacy_reject (r : http_response) : result (Z * headers * bytes) :=
  let '(status, l, body) := r in
  let! h := set_defaults (headers_of l) [
    (s "Date", env_date env); (s "Server", env_user_agent env);
    (s "Content-Length", str_of_N (lenN body)); (s "Content-Type", s "text/plain");
    (s "Connection", s "close")] in
  Ok (status, h, body).

(* legacy/server.py 119-194: the response that handler writes for a request; 101 is followed by
   the handler of the connection, other statuses by the end of the connection.  An exception
   here closes the connection without response. *)
Definition legacy_response (r : result request) : result (Z * headers * option bytes) :=
  let reject r := let! (status, h, body) := legacy_reject r in Ok (status, h, Some body) in
  match r with
  | Raise e => let! r := legacy_error e in reject r
  | Ok req =>
    match legacy_handshake req with
    | HsOpen h => Ok (101%Z, h, None)
    | HsAbort r => reject r
    | HsRaise e => let! r := legacy_error e in reject r
    end
  end.
End Server.

(* legacy/http.py 90-134: read_response.  Unlike Response.parse (http11.py), it doesn't read the
   body. *)
Definition read_response {S} : gen S (Z * str * headers) :=
  let* status_line := parse_line in
  match split3 status_line with
  | None => GRaise ValueError
  | Some (version, raw_status_code, raw_reason) =>
    if negb (bytes_eqb version (b "HTTP/1.1")) then GRaise ValueError
    else match py_int (map b2n raw_status_code) with
    | None => GRaise ValueError
    | Some status_code =>
      if negb ((100 <=? status_code)%Z && (status_code <? 1000)%Z) then GRaise ValueError
      else if negb (value_fullmatch raw_reason) then GRaise ValueError
      else
        let* reason := glift (utf8_decode raw_reason) in
        let* h := parse_headers in
        GRet (status_code, reason, h)
    end
  end.

(* legacy/client.py 87-116: read_http_response, for a stream as in [read_http_request] *)
Definition read_http_response (data : bytes) : result (Z * headers) :=
  match run (S := unit) read_response {| r_buffer := data; r_eof := true |} tt with
  | ODone (status, _, h) _ _ => Ok (status, h)
  | _ => Raise (InvalidMessage (s "did not receive a valid HTTP response"))
  end.

(* legacy/client.py 279-331: what handshake does with the response *)
Inductive client_end (E : Type) : Type :=
| CeOpen (extensions : list E) (subprotocol : option str)
| CeRedirect (uri : str)
| CeRaise (e : exn).
Arguments CeOpen {E}. Arguments CeRedirect {E}. Arguments CeRaise {E}.

Section Client.
Context {E : Type} (cfg : client_config E) (key : str).

Definition is_redirect (status : Z) : bool :=
  existsb (Z.eqb status) [301; 302; 303; 307; 308]%Z.

(* legacy/client.py 307-331 *)
Definition legacy_client_handshake (status : Z) (h : headers) : client_end E :=
  if is_redirect status then
    if negb (headers_contains h (s "Location")) then CeRaise (InvalidHeader (s "Location") None)
    else match headers_getitem h (s "Location") with
         | Ok uri => CeRedirect uri
         | Raise e => CeRaise e
         end
  else if negb (status =? 101)%Z then CeRaise (InvalidStatusCode status)
  else match (let! _ := check_response key h in
              let! extensions := process_response_extensions cfg h in
              let! subprotocol := process_response_subprotocol cfg h in
              Ok (extensions, subprotocol)) with
       | Ok (extensions, subprotocol) => CeOpen extensions subprotocol
       | Raise e => CeRaise e
       end.

End Client.
