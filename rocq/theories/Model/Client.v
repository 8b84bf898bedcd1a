(* Model of src/websockets/client.py (ClientConnection) and of build_host in
   src/websockets/http.py.  Logging isn't modelled. *)
From Verif Require Import Base.Prelude Base.PyInt Model.Utils Model.Datastructures Model.Headers
  Model.Streams Model.Http11 Model.Frames Model.Connection Model.Handshake.

(* uri.py 19-43: WebSocketURI *)
Record ws_uri : Type := {
  uri_secure : bool; uri_host : str; uri_port : Z; uri_resource_name : str;
  uri_user_info : option (str * str) }.

(* client.py 54-69: the arguments of ClientConnection; the URI is parsed in __init__ *)
Record client_config (E : Type) : Type := {
  cc_wsuri : ws_uri;
  cc_origin : option str;
  cc_extensions : option (list (client_factory E));
  cc_subprotocols : option (list str);
  cc_extra_headers : option (list (str * str)) }.
Arguments cc_wsuri {E}. Arguments cc_origin {E}. Arguments cc_extensions {E}.
Arguments cc_subprotocols {E}. Arguments cc_extra_headers {E}.

(* http.py 32-52: build_host *)
Definition build_host (env : environment) (host : str) (port : Z) (secure : bool) : str :=
  let host := if env_is_ipv6 env host then s "[" ++ host ++ s "]" else host in
  if (port =? (if secure then 443 else 80))%Z then host else host ++ s ":" ++ str_of_Z port.

Section Client.
Context {E : Type} (X : ext_ops E) (env : environment) (cfg : client_config E) (key : str).
Implicit Type c : conn E.

(* headers[name] = value, unless there's none *)
Definition set_opt (h : headers) (name : str) (value : option str) : headers :=
  match value with Some v => headers_setitem h name v | None => h end.

(* client.py 71-117: connect *)
Definition connect : result request :=
  let u := cc_wsuri cfg in
  let h := headers_setitem headers_empty (s "Host")
             (build_host env (uri_host u) (uri_port u) (uri_secure u)) in
  let! h := match uri_user_info u with
            | Some (username, password) =>
                let! v := build_authorization_basic username password in
                Ok (headers_setitem h (s "Authorization") v)
            | None => Ok h
            end in
  let h := set_opt h (s "Origin") (cc_origin cfg) in
  let h := headers_setitem h (s "Upgrade") (s "websocket") in
  let h := headers_setitem h (s "Connection") (s "Upgrade") in
  let h := headers_setitem h (s "Sec-WebSocket-Key") key in
  let h := headers_setitem h (s "Sec-WebSocket-Version") (s "13") in
  let h := set_opt h (s "Sec-WebSocket-Extensions")
             (option_map (fun l => build_extension (map (fun f => (cf_name f, cf_request_params f)) l))
                (cc_extensions cfg)) in
  let h := set_opt h (s "Sec-WebSocket-Protocol") (option_map build_subprotocol (cc_subprotocols cfg)) in
  let h := match cc_extra_headers cfg with Some l => headers_update h l | None => h end in
  let! h := set_defaults h [(s "User-Agent", env_user_agent env)] in
  Ok {| req_path := uri_resource_name u; req_headers := h |}.

(* client.py 206-228: the loop over extension_factory; None if it ends without break *)
Fixpoint match_response (factories : list (client_factory E)) (name : str) (response_params : params)
  (accepted : list E) : result (option E) :=
  match factories with
  | [] => Ok None
  | f :: factories' =>
    if negb (str_eqb (cf_name f) name) then match_response factories' name response_params accepted
    else match cf_process_response_params f response_params accepted with
         | Ok x => Ok (Some x)
         | Raise e =>
           if is_negotiation_error e then match_response factories' name response_params accepted
           else Raise e
         end
  end.

(* client.py 204-238: the loop over parsed_extensions.  The parameters in the message of the
   exception aren't modelled. *)
Fixpoint match_responses (factories : list (client_factory E)) (l : list ext_header)
  (accepted : list E) : result (list E) :=
  match l with
  | [] => Ok accepted
  | (name, response_params) :: l' =>
    let! m := match_response factories name response_params accepted in
    match m with
    | Some extension => match_responses factories l' (accepted ++ [extension])
    | None => Raise (NegotiationError (s "Unsupported extension: name = " ++ name))
    end
  end.

(* client.py 170-240: process_extensions *)
Definition process_response_extensions (h : headers) : result (list E) :=
  match headers_get_all h (s "Sec-WebSocket-Extensions") with
  | [] => Ok []
  | vs =>
    match cc_extensions cfg with
    | None => Raise (InvalidHandshakeExn (s "no extensions supported"))
    | Some factories =>
      let! parsed := parse_all parse_extension vs in
      match_responses factories parsed []
    end
  end.

(* client.py 242-273: process_subprotocol *)
Definition process_response_subprotocol (h : headers) : result (option str) :=
  match headers_get_all h (s "Sec-WebSocket-Protocol") with
  | [] => Ok None
  | vs =>
    match cc_subprotocols cfg with
    | None => Raise (InvalidHandshakeExn (s "no subprotocols supported"))
    | Some available =>
      let! parsed := parse_all parse_subprotocol vs in
      match parsed with
      | [] => Raise RuntimeError   (* IndexError; unreachable *)
      | [p] => if existsb (str_eqb p) available then Ok (Some p)
               else Raise (NegotiationError (s "unsupported subprotocol: " ++ p))
      | _ => Raise (InvalidHandshakeExn (s "multiple subprotocols: " ++ join (s ", ") parsed))
      end
    end
  end.

(* client.py 153-164: Sec-WebSocket-Accept *)
Definition check_accept (h : headers) : result unit :=
  let! s_w_accept := get_single h (s "Sec-WebSocket-Accept") in
  let! expected := accept_key key in
  if str_eqb s_w_accept expected then Ok tt
  else Raise (InvalidHeaderValue (s "Sec-WebSocket-Accept") (Some s_w_accept)).

(* client.py 119-168: process_response.  self.extensions and self.subprotocol are assigned as
   the checks pass. *)
Definition process_response (r : response) : meth := fun c =>
  let h := resp_headers r in
  if negb (resp_status r =? 101)%Z then (c, Raise (InvalidStatusCode (resp_status r)))
  else match (let! _ := check_upgrade h in
              let! _ := check_accept h in
              process_response_extensions h) with
  | Raise e => (c, Raise e)
  | Ok extensions =>
    let c := set_exts c extensions in
    match process_response_subprotocol h with
    | Raise e => (c, Raise e)
    | Ok subprotocol => (set_subprotocol c subprotocol, Ok tt)
    end
  end.

(* client.py 275-283: send_request *)
Definition send_request (r : request) : meth := fun c =>
  match serialize_request r with
  | Raise e => (c, Raise e)
  | Ok data => (set_writes c (c_writes c ++ [data]), Ok tt)
  end.

Definition append_response c (r : response) : conn E := set_events c (c_events c ++ [EvResponse r]).

(* client.py 290-298: what parse does with a response *)
Definition handle_response (r : response) : meth := fun c =>
  match process_response r c with
  | (c, Ok _) => (append_response (set_state c OPEN) r, Ok tt)
  | (c, Raise e) =>
    if is_invalid_handshake e then
      (append_response c {| resp_status := resp_status r; resp_reason := resp_reason r;
         resp_headers := resp_headers r; resp_body := resp_body r; resp_exception := Some e |}, Ok tt)
    else (append_response c r, Raise e)
  end.

(* client.py 285-298: the part of parse before super().parse() *)
Definition client_parse : gen (conn E) unit :=
  let* r := parse_response in
  let* c := get_state in
  match c_state c with
  | CONNECTING => gmeth (handle_response r)
  | _ => GRaise AssertionError
  end.

(* client.py 54-69: __init__ *)
Definition new_client (max_size : option Z) (keys : nat -> key4) : machine E :=
  start X client_parse (set_origin (new_conn CLIENT CONNECTING max_size keys) (cc_origin cfg)).

(* The public API of ClientConnection, as a list of calls: those of Connection, and those of
   client.py. *)
Inductive client_call : Type :=
| KCall (k : call)
| KConnect
| KSendRequest (r : request).

(* What a call returns. *)
Inductive client_ret : Type :=
| KRet (r : ret)
| KRequest (r : result request).

Definition client_do (m : machine E) (k : client_call) : machine E * client_ret :=
  match k with
  | KCall k => let '(m', r) := do_call X m k in (m', KRet r)
  | KConnect => (m, KRequest connect)
  | KSendRequest r => let '(m', x) := on_conn m (send_request r) in (m', KRet x)
  end.

Fixpoint client_run (m : machine E) (ks : list client_call) : machine E * list client_ret :=
  match ks with
  | [] => (m, [])
  | k :: ks' =>
    let '(m', r) := client_do m k in
    let '(m'', rs) := client_run m' ks' in
    (m'', r :: rs)
  end.
End Client.
