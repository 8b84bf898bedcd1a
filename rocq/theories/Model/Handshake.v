(* What server.py and client.py share: exceptions of the opening handshake
   (src/websockets/exceptions.py), extension factories (src/websockets/extensions/base.py),
   checks of the Connection and Upgrade headers, and what comes from the environment. *)
From Verif Require Import Base.Prelude Base.PyInt Model.Datastructures Model.Headers.

(* exceptions.py: subclasses of NegotiationError *)
Definition is_negotiation_error (e : exn) : bool :=
  match e with
  | NegotiationError _ | DuplicateParameter _ | InvalidParameterName _ | InvalidParameterValue _ _ => true
  | _ => false
  end.

(* exceptions.py: subclasses of InvalidHandshake *)
Definition is_invalid_handshake (e : exn) : bool :=
  match e with
  | InvalidHandshakeExn _ | SecurityError _ | InvalidMessage _ | InvalidHeader _ _
  | InvalidHeaderFormat _ _ _ _ | InvalidHeaderValue _ _ | InvalidOrigin _ | InvalidUpgrade _ _
  | InvalidStatusCode _ => true
  | _ => is_negotiation_error e
  end.

(* exceptions.py 177-193: the message of an InvalidHeader *)
Definition invalid_header_str (name : str) (value : option str) : str :=
  match value with
  | None => s "missing " ++ name ++ s " header"
  | Some [] => s "empty " ++ name ++ s " header"
  | Some v => s "invalid " ++ name ++ s " header: " ++ v
  end.

(* exceptions.py 280-297: the message of an InvalidParameterValue *)
Definition invalid_parameter_str (name : str) (value : option str) : str :=
  match value with
  | None => s "missing value for parameter " ++ name
  | Some [] => s "empty value for parameter " ++ name
  | Some v => s "invalid value for parameter " ++ name ++ s ": " ++ v
  end.

(* str(exc) for the subclasses of InvalidHandshake; not used for other exceptions *)
Definition exn_str (e : exn) : str :=
  match e with
  | InvalidHandshakeExn msg | SecurityError msg | InvalidMessage msg | NegotiationError msg => msg
  | InvalidHeader name value | InvalidHeaderValue name value | InvalidUpgrade name value =>
      invalid_header_str name value
  | InvalidHeaderFormat name error header pos =>   (* exceptions.py 195-207 *)
      invalid_header_str name (Some (error ++ s " at " ++ str_of_N pos ++ s " in " ++ header))
  | InvalidOrigin origin => invalid_header_str (s "Origin") origin   (* exceptions.py 218-226 *)
  | InvalidStatusCode status =>                                      (* exceptions.py 235-247 *)
      s "server rejected WebSocket connection: HTTP " ++ str_of_Z status
  | DuplicateParameter name => s "duplicate parameter: " ++ name     (* exceptions.py 256-266 *)
  | InvalidParameterName name => s "invalid parameter name: " ++ name (* exceptions.py 268-278 *)
  | InvalidParameterValue name value => invalid_parameter_str name value
  | _ => []
  end.

(* parameters of an extension in a header: headers.py ExtensionParameter *)
Definition params : Type := list (str * option str).

(* extensions/base.py 51-86: ClientExtensionFactory.  An extension object has type [E]. *)
Record client_factory (E : Type) : Type := {
  cf_name : str;
  cf_request_params : params;
  cf_process_response_params : params -> list E -> result E }.
Arguments cf_name {E}. Arguments cf_request_params {E}. Arguments cf_process_response_params {E}.

(* extensions/base.py 88-119: ServerExtensionFactory *)
Record server_factory (E : Type) : Type := {
  sf_name : str;
  sf_process_request_params : params -> list E -> result (params * E) }.
Arguments sf_name {E}. Arguments sf_process_request_params {E}.

(* Values that come from outside of the library:
   - http.py 29: USER_AGENT, built from the versions of Python and websockets;
   - email.utils.formatdate(usegmt=True) at the time of the call;
   - http.py 39-48: whether ipaddress.ip_address(host) succeeds and has version 6;
   - the order in which a set of strings is iterated, given its elements without duplicates. *)
Record environment : Type := {
  env_user_agent : str;
  env_date : str;
  env_is_ipv6 : str -> bool;
  env_set_order : list str -> list str }.

(* sum([parse(value) for value in values], []) *)
Fixpoint parse_all {A} (parse : str -> result (list A)) (values : list str) : result (list A) :=
  match values with
  | [] => Ok []
  | v :: values' =>
    let! x := parse v in
    let! y := parse_all parse values' in
    Ok (x ++ y)
  end.

(* ", ".join(l) if l else None *)
Definition join_or_none (l : list str) : option str :=
  match l with [] => None | _ => Some (join (s ", ") l) end.

(* server.py 173-190, client.py 135-151: the same checks in process_request and
   process_response *)
Definition check_upgrade (h : headers) : result unit :=
  let! connection := parse_all parse_connection (headers_get_all h (s "Connection")) in
  if negb (existsb (fun v => str_eqb (lower v) (s "upgrade")) connection) then
    Raise (InvalidUpgrade (s "Connection") (join_or_none connection))
  else
    let! upgrade := parse_all parse_upgrade (headers_get_all h (s "Upgrade")) in
    match upgrade with
    | [v] => if str_eqb (lower v) (s "websocket") then Ok tt
             else Raise (InvalidUpgrade (s "Upgrade") (join_or_none upgrade))
    | _ => Raise (InvalidUpgrade (s "Upgrade") (join_or_none upgrade))
    end.

(* headers[name] in a try block, server.py 192-199 and 208-216, client.py 153-161 *)
Definition get_single (h : headers) (name : str) : result str :=
  match headers_getitem h name with
  | Ok v => Ok v
  | Raise KeyError => Raise (InvalidHeader name None)
  | Raise (MultipleValuesError _) =>
      Raise (InvalidHeader name (Some (s "more than one " ++ name ++ s " header found")))
  | Raise e => Raise e
  end.

(* the loop of setdefault calls with constant values *)
Fixpoint set_defaults (h : headers) (l : list (str * str)) : result headers :=
  match l with
  | [] => Ok h
  | (k, v) :: l' => let! h' := headers_setdefault h k v in set_defaults h' l'
  end.
