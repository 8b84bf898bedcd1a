(* Model of src/websockets/server.py (ServerConnection).  Logging isn't modelled. *)
From Verif Require Import Base.Prelude Base.PyInt Base.Utf8 Base.Base64 Model.Utils
  Model.Datastructures Model.Headers Model.Streams Model.Http11 Model.Frames Model.Connection
  Model.Handshake.

(* server.py 63-75: the arguments of ServerConnection.  [sc_extra_headers] is what
   extra_headers provides for a request (server.py 136-148), as (name, value) pairs, whether
   it's a Headers, a mapping, a list of pairs or a function; the function may not raise. *)
Record server_config (E : Type) : Type := {
  sc_origins : option (list (option str));
  sc_extensions : option (list (server_factory E));
  sc_subprotocols : option (list str);
  sc_extra_headers : str -> headers -> option (list (str * str)) }.
Arguments sc_origins {E}. Arguments sc_extensions {E}. Arguments sc_subprotocols {E}.
Arguments sc_extra_headers {E}.

Section Server.
Context {E : Type} (X : ext_ops E) (env : environment) (cfg : server_config E).
Implicit Type c : conn E.

(* server.py 192-206: the key *)
Definition request_key (h : headers) : result str :=
  let! key := get_single h (s "Sec-WebSocket-Key") in
  let! data := utf8_encode key in
  match b64decode_validate data with
  | Raise BinasciiError => Raise (InvalidHeaderValue (s "Sec-WebSocket-Key") (Some key))
  | Raise e => Raise e
  | Ok raw_key =>
    if (length raw_key =? 16)%nat then Ok key
    else Raise (InvalidHeaderValue (s "Sec-WebSocket-Key") (Some key))
  end.

(* server.py 208-219: the version *)
Definition request_version (h : headers) : result unit :=
  let! version := get_single h (s "Sec-WebSocket-Version") in
  if str_eqb version (s "13") then Ok tt
  else Raise (InvalidHeaderValue (s "Sec-WebSocket-Version") (Some version)).

(* origin in self.origins *)
Definition opt_str_eqb (x y : option str) : bool :=
  match x, y with
  | None, None => true
  | Some a, Some b => str_eqb a b
  | _, _ => false
  end.

(* server.py 229-247: process_origin *)
Definition process_origin (h : headers) : result (option str) :=
  match headers_get h (s "Origin") with
  | Raise (MultipleValuesError _) =>
      Raise (InvalidHeader (s "Origin") (Some (s "more than one Origin header found")))
  | Raise e => Raise e
  | Ok origin =>
    match sc_origins cfg with
    | None => Ok origin
    | Some origins =>
      if existsb (opt_str_eqb origin) origins then Ok origin else Raise (InvalidOrigin origin)
    end
  end.

(* server.py 294-317: the loop over ext_factory; None if it ends without break *)
Fixpoint match_factory (factories : list (server_factory E)) (name : str) (request_params : params)
  (accepted : list E) : result (option (params * E)) :=
  match factories with
  | [] => Ok None
  | f :: factories' =>
    if negb (str_eqb (sf_name f) name) then match_factory factories' name request_params accepted
    else match sf_process_request_params f request_params accepted with
         | Ok x => Ok (Some x)
         | Raise e =>
           if is_negotiation_error e then match_factory factories' name request_params accepted
           else Raise e
         end
  end.

(* server.py 292-320: the loop over parsed_header_values: the values of extension_headers and
   accepted_extensions at the end *)
Fixpoint match_extensions (factories : list (server_factory E)) (offers : list ext_header)
  (headers_acc : list ext_header) (accepted : list E) : result (list ext_header * list E) :=
  match offers with
  | [] => Ok (headers_acc, accepted)
  | (name, request_params) :: offers' =>
    let! m := match_factory factories name request_params accepted in
    match m with
    | Some (response_params, extension) =>
        match_extensions factories offers' (headers_acc ++ [(name, response_params)])
          (accepted ++ [extension])
    | None => match_extensions factories offers' headers_acc accepted
    end
  end.

(* server.py 249-328: process_extensions *)
Definition process_extensions (h : headers) : result (option str * list E) :=
  let! (extension_headers, accepted) :=
    match headers_get_all h (s "Sec-WebSocket-Extensions"), sc_extensions cfg with
    | v :: vs, Some (f :: fs) =>
      let! offers := parse_all parse_extension (v :: vs) in
      match_extensions (f :: fs) offers [] []
    | _, _ => Ok ([], [])
    end in
  Ok (match extension_headers with [] => None | _ => Some (build_extension extension_headers) end,
      accepted).

(* list.index; not found can't happen *)
Fixpoint index_of (l : list str) (x : str) : nat :=
  match l with
  | [] => 0
  | y :: l' => if str_eqb y x then 0 else S (index_of l' x)
  end.

(* the elements of a set built from a list *)
Fixpoint dedup (l : list str) : list str :=
  match l with
  | [] => []
  | x :: l' => if existsb (str_eqb x) l' then dedup l' else x :: dedup l'
  end.

(* sorted(l, key=key)[0]: sorted is stable, so this is the first of those with the least key *)
Fixpoint first_min (key : str -> nat) (x : str) (l : list str) : str :=
  match l with
  | [] => x
  | y :: l' => if (key y <? key x)%nat then first_min key y l' else first_min key x l'
  end.

(* server.py 358-387: select_subprotocol *)
Definition select_subprotocol (client_subprotocols server_subprotocols : list str) : option str :=
  let subprotocols :=
    env_set_order env
      (dedup (filter (fun p => existsb (str_eqb p) server_subprotocols) client_subprotocols)) in
  match subprotocols with
  | [] => None
  | p :: ps =>
    Some (first_min (fun p => index_of client_subprotocols p + index_of server_subprotocols p)%nat p ps)
  end.

(* server.py 330-356: process_subprotocol *)
Definition process_subprotocol (h : headers) : result (option str) :=
  match headers_get_all h (s "Sec-WebSocket-Protocol"), sc_subprotocols cfg with
  | v :: vs, Some (p :: ps) =>
    let! parsed := parse_all parse_subprotocol (v :: vs) in
    Ok (select_subprotocol parsed (p :: ps))
  | _, _ => Ok None
  end.

(* server.py 154-227: process_request.  self.origin, self.extensions and self.subprotocol are
   assigned as the checks pass. *)
Definition process_request (req : request) c : conn E * result (str * option str * option str) :=
  let h := req_headers req in
  match (let! _ := check_upgrade h in
         let! key := request_key h in
         let! _ := request_version h in
         let! origin := process_origin h in
         Ok (key, origin)) with
  | Raise e => (c, Raise e)
  | Ok (key, origin) =>
    let c := set_origin c origin in
    match process_extensions h with
    | Raise e => (c, Raise e)
    | Ok (extensions_header, extensions) =>
      let c := set_exts c extensions in
      match process_subprotocol h with
      | Raise e => (c, Raise e)
      | Ok subprotocol => (set_subprotocol c subprotocol, Ok (key, extensions_header, subprotocol))
      end
    end
  end.

(* server.py 389-411: reject.  When [hs] is given, the caller's object is changed; that isn't
   modelled. *)
Definition reject (status : Z) (phrase : str) (text : str) (hs : option headers) : result response :=
  let! body := utf8_encode text in
  let h := match hs with None => headers_empty | Some h => h end in
  let! h := set_defaults h [
    (s "Date", env_date env); (s "Server", env_user_agent env);
    (s "Content-Length", str_of_N (lenN body)); (s "Content-Type", s "text/plain; charset=utf-8");
    (s "Connection", s "close")] in
  Ok {| resp_status := status; resp_reason := phrase; resp_headers := h; resp_body := Some body;
        resp_exception := None |}.

(* response._replace(exception=exc) *)
Definition with_exception (r : response) (e : exn) : response :=
  {| resp_status := resp_status r; resp_reason := resp_reason r; resp_headers := resp_headers r;
     resp_body := resp_body r; resp_exception := Some e |}.

Definition nl : str := [10]%N.

(* server.py 90-123: the response for an exception raised by process_request *)
Definition reject_exception (e : exn) : result response :=
  let! r :=
    match e with
    | InvalidOrigin _ =>
        reject 403 (s "Forbidden")
          (s "Failed to open a WebSocket connection: " ++ exn_str e ++ s "." ++ nl) None
    | InvalidUpgrade _ _ =>
        reject 426 (s "Upgrade Required")
          (s "Failed to open a WebSocket connection: " ++ exn_str e ++ s "." ++ nl ++ nl
             ++ s "You cannot access a WebSocket server directly "
             ++ s "with a browser. You need a WebSocket client." ++ nl)
          (Some (headers_of [(s "Upgrade", s "websocket")]))
    | _ =>
        if is_invalid_handshake e then
          reject 400 (s "Bad Request")
            (s "Failed to open a WebSocket connection: " ++ exn_str e ++ s "." ++ nl) None
        else
          reject 500 (s "Internal Server Error")
            (s "Failed to open a WebSocket connection." ++ nl
               ++ s "See server log for more information." ++ nl) None
    end in
  Ok (with_exception r e).

(* server.py 125-152: the response for a valid request *)
Definition accept_response (req : request) (key : str) (extensions_header protocol_header : option str)
  : result response :=
  let h := headers_setitem headers_empty (s "Upgrade") (s "websocket") in
  let h := headers_setitem h (s "Connection") (s "Upgrade") in
  let! accept := accept_key key in
  let h := headers_setitem h (s "Sec-WebSocket-Accept") accept in
  let h := match extensions_header with
           | Some v => headers_setitem h (s "Sec-WebSocket-Extensions") v | None => h end in
  let h := match protocol_header with
           | Some v => headers_setitem h (s "Sec-WebSocket-Protocol") v | None => h end in
  let h := match sc_extra_headers cfg (req_path req) (req_headers req) with
           | Some l => headers_update h l | None => h end in
  let! h := set_defaults h [(s "Date", env_date env); (s "Server", env_user_agent env)] in
  Ok {| resp_status := 101; resp_reason := s "Switching Protocols"; resp_headers := h;
        resp_body := None; resp_exception := None |}.

(* server.py 77-152: accept *)
Definition accept (req : request) c : conn E * result response :=
  match process_request req c with
  | (c, Raise e) => (c, reject_exception e)
  | (c, Ok (key, extensions_header, protocol_header)) =>
      (c, accept_response req key extensions_header protocol_header)
  end.

(* server.py 413-431: send_response *)
Definition send_response (r : response) : meth := fun c =>
  let c := if (resp_status r =? 101)%Z then set_state c OPEN else c in
  match serialize_response r with
  | Raise e => (c, Raise e)
  | Ok data => (set_writes c (c_writes c ++ [data]), Ok tt)
  end.

(* server.py 433-436: the part of parse before super().parse() *)
Definition server_parse : gen (conn E) unit :=
  let* req := parse_request in
  let* c := get_state in
  match c_state c with
  | CONNECTING => gmeth (mupd (fun c => set_events c (c_events c ++ [EvRequest req])))
  | _ => GRaise AssertionError
  end.

(* server.py 63-75: __init__ *)
Definition new_server (max_size : option Z) (keys : nat -> key4) : machine E :=
  start X server_parse (new_conn SERVER CONNECTING max_size keys).

(* The public API of ServerConnection, as a list of calls: those of Connection, and those of
   server.py. *)
Inductive server_call : Type :=
| SCall (k : call)
| SAccept (req : request)
| SReject (status : Z) (phrase : str) (text : str) (hs : option headers)
| SSendResponse (r : response).

(* What a call returns. *)
Inductive server_ret : Type :=
| SRet (r : ret)
| SResponse (r : result response).

Definition server_do (m : machine E) (k : server_call) : machine E * server_ret :=
  match k with
  | SCall k => let '(m', r) := do_call X m k in (m', SRet r)
  | SAccept req =>
      let '(c, r) := accept req (m_conn m) in
      (Machine c (m_reader m) (m_parser m) (m_exc m), SResponse r)
  | SReject status phrase text hs => (m, SResponse (reject status phrase text hs))
  | SSendResponse r => let '(m', x) := on_conn m (send_response r) in (m', SRet x)
  end.

Fixpoint server_run (m : machine E) (ks : list server_call) : machine E * list server_ret :=
  match ks with
  | [] => (m, [])
  | k :: ks' =>
    let '(m', r) := server_do m k in
    let '(m'', rs) := server_run m' ks' in
    (m'', r :: rs)
  end.
End Server.
