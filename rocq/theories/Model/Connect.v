(* Model of Connect in src/websockets/legacy/client.py: where connect() connects, and redirects.
   The opening handshake on a connection is modelled in LegacyHandshake.v and the content of the
   request in Client.v; here, its outcome is given by the server.  The arguments that aren't
   about the connection are forwarded unchanged and aren't modelled. *)
From Verif Require Import Base.Prelude Model.Client Model.Uri.

(* the argument ssl: None, False, True or an SSLContext *)
Inductive ssl_arg : Type := SslNone | SslFalse | SslTrue | SslContext.

(* legacy/client.py 373-396: the arguments of connect() about the connection; None for those
   that aren't given *)
Record connect_args : Type := {
  ca_path : option str;          (* path, for unix_connect *)
  ca_ssl : option ssl_arg;
  ca_sock : bool;                (* sock is given *)
  ca_host : option (option str); (* host, which may be None *)
  ca_port : option (option Z) }.

(* self._create_connection: loop.create_connection or loop.create_unix_connection, with the
   arguments of functools.partial.  [cn_factory] has the arguments host, port and secure of the
   protocol factory. *)
Inductive position : Type := PHost (h : option str) | PPort (p : option Z) | PPath (p : str).
Record connector : Type := {
  cn_unix : bool;
  cn_args : list position;
  cn_ssl : option ssl_arg;
  cn_sock : bool;
  cn_factory : str * Z * bool }.

(* An instance of Connect. *)
Record connect_state : Type := { cs_wsuri : ws_uri; cs_connector : connector }.

(* What loop.create_connection and loop.create_unix_connection connect to. *)
Inductive peer : Type := PeerTcp (host : option str) (port : option Z) | PeerUnix (path : str) | PeerSock.

(* An attempt: the handshake is made for a URI, on a connection to a peer, with TLS or not. *)
Record attempt : Type := { at_uri : ws_uri; at_peer : peer; at_tls : bool }.

(* asyncio/base_events.py create_connection and asyncio/unix_events.py create_unix_connection:
   arguments that aren't accepted; TLS is used if ssl is true.  A call with host or port and
   sock raises ValueError; create_unix_connection accepts one positional argument after the
   factory. *)
Definition truthy (a : option ssl_arg) : bool :=
  match a with Some SslTrue | Some SslContext => true | _ => false end.
Definition create_connection (cn : connector) : result (peer * bool) :=
  match cn_unix cn, cn_args cn with
  | false, [PHost h; PPort p] =>
      if cn_sock cn then
        match h, p with
        | None, None => Ok (PeerSock, truthy (cn_ssl cn))
        | _, _ => Raise ValueError
        end
      else match h, p with
        | None, None => Raise ValueError   (* host and port was not specified and no sock specified *)
        | _, _ => Ok (PeerTcp h p, truthy (cn_ssl cn))
        end
  | true, [PPath p] =>
      if cn_sock cn then Raise ValueError else Ok (PeerUnix p, truthy (cn_ssl cn))
  | _, _ => Raise TypeError
  end.

Section Connect.
Context (ue : uri_env).

(* legacy/client.py 418-473: __init__ *)
Definition connect_init (uri : str) (a : connect_args) : result connect_state :=
  let! wsuri := parse_uri ue uri in
  let! ssl :=
    if uri_secure wsuri then Ok (match ca_ssl a with None => Some SslTrue | x => x end)
    else match ca_ssl a with
         | None => Ok None
         | Some SslNone => Ok (Some SslNone)
         | Some _ => Raise ValueError
         end in
  let factory := (uri_host wsuri, uri_port wsuri, uri_secure wsuri) in
  Ok {| cs_wsuri := wsuri;
        cs_connector :=
          match ca_path a with
          | None =>
            let host := if ca_sock a then None else Some (uri_host wsuri) in
            let port := if ca_sock a then None else Some (uri_port wsuri) in
            let host := match ca_host a with Some h => h | None => host end in
            let port := match ca_port a with Some p => p | None => port end in
            {| cn_unix := false; cn_args := [PHost host; PPort port]; cn_ssl := ssl;
               cn_sock := ca_sock a; cn_factory := factory |}
          | Some path =>
            {| cn_unix := true; cn_args := [PPath path]; cn_ssl := ssl;
               cn_sock := ca_sock a; cn_factory := factory |}
          end |}.

(* legacy/client.py 475-507: handle_redirect *)
Definition handle_redirect (st : connect_state) (uri : str) : result connect_state :=
  let old := cs_wsuri st in
  let! new := parse_uri ue uri in
  if uri_secure old && negb (uri_secure new) then Raise (SecurityError (s "redirect from WSS to WS"))
  else
    let same_origin := str_eqb (uri_host old) (uri_host new) && (uri_port old =? uri_port new)%Z in
    let cn := cs_connector st in
    Ok {| cs_wsuri := new;
          cs_connector :=
            if same_origin then cn
            else {| cn_unix := cn_unix cn;
                    cn_args := [PHost (Some (uri_host new)); PPort (Some (uri_port new))];
                    cn_ssl := cn_ssl cn; cn_sock := cn_sock cn;
                    cn_factory := let '(_, _, secure) := cn_factory cn in
                                  (uri_host new, uri_port new, secure) |} |}.

(* What happens to an attempt: the handshake succeeds, is redirected, or an exception is raised
   by the connection or by the handshake. *)
Inductive answer : Type := Opens | Redirects (uri : str) | Fails (e : exn).
(* The servers and the network: the answer may depend on the attempts made so far. *)
Definition world : Type := list attempt -> answer.

(* How connect() ends. *)
Inductive connect_end : Type := Connected (a : attempt) | Failed (e : exn).

(* legacy/client.py 528-554: __await_impl__, for the values of redirects that remain; the
   attempts made before are in [past] *)
Fixpoint connect_loop (w : world) (n : nat) (st : connect_state) (past : list attempt)
  : list attempt * connect_end :=
  match n with
  | O => (past, Failed (SecurityError (s "too many redirects")))
  | S n' =>
    match create_connection (cs_connector st) with
    | Raise e => (past, Failed e)
    | Ok (p, tls) =>
      let a := {| at_uri := cs_wsuri st; at_peer := p; at_tls := tls |} in
      let past := past ++ [a] in
      match w past with
      | Opens => (past, Connected a)
      | Fails e => (past, Failed e)
      | Redirects uri =>
        match handle_redirect st uri with
        | Raise e => (past, Failed e)
        | Ok st' => connect_loop w n' st' past
        end
      end
    end
  end.

(* legacy/client.py 371: MAX_REDIRECTS_ALLOWED *)
Definition max_redirects_allowed : nat := 10.

(* await connect(uri, ...): the attempts, and the end *)
Definition await_connect (w : world) (uri : str) (a : connect_args) : list attempt * connect_end :=
  match connect_init uri a with
  | Raise e => ([], Failed e)
  | Ok st => connect_loop w max_redirects_allowed st []
  end.
End Connect.
