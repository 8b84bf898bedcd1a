(* Model of the arguments of serve() and unix_serve() about the listening socket, and of the
   choice of the protocol by connect() and serve(), in src/websockets/legacy/server.py and
   src/websockets/legacy/client.py.  Missing: a sequence of hosts, the other arguments of
   loop.create_server, and errors of the operating system.  The argument loop isn't modelled. *)
From Verif Require Import Base.Prelude Model.Client Model.Uri Model.Connect.

(* legacy/server.py 848-876: arguments of serve(); P is the type of protocol factories.  None for
   those that aren't given; the default value of host, port and path is None. *)
Record serve_args (P : Type) : Type := {
  sv_host : option str;
  sv_port : option Z;
  sv_path : option str;
  sv_unix : bool;
  sv_ssl : option ssl_arg;
  sv_sock : bool;                (* sock is given *)
  sv_create_protocol : option P;
  sv_klass : option P;
  sv_timeout : option N;
  sv_compression : option str }.
Arguments sv_host {P}. Arguments sv_port {P}. Arguments sv_path {P}. Arguments sv_unix {P}.
Arguments sv_ssl {P}. Arguments sv_sock {P}. Arguments sv_create_protocol {P}. Arguments sv_klass {P}.
Arguments sv_timeout {P}. Arguments sv_compression {P}.

(* The arguments of the protocol: the factory, host, port and secure *)
Record protocol_of (P : Type) : Type := {
  pr_factory : P; pr_host : option str; pr_port : option Z; pr_secure : bool }.
Arguments pr_factory {P}. Arguments pr_host {P}. Arguments pr_port {P}. Arguments pr_secure {P}.

(* legacy/server.py 890-897, legacy/client.py 406-413: the factory, given the default class *)
Definition choose_protocol {P} (default : P) (create_protocol klass : option P) : P :=
  let klass := match klass with None => default | Some k => k end in
  match create_protocol with None => klass | Some c => c end.

(* legacy/server.py 881-897, legacy/client.py 397-413: DeprecationWarnings, by message *)
Definition argument_warnings {P} (timeout : option N) (klass : option P) : list str :=
  match timeout with None => [] | Some _ => [s "rename timeout to close_timeout"] end ++
  match klass with None => [] | Some _ => [s "rename klass to create_protocol"] end.

(* What loop.create_server and loop.create_unix_server listen on *)
Inductive listener : Type :=
| ListenTcp (host : option str) (port : option Z)
| ListenUnix (path : str)
| ListenSock.

(* asyncio/base_events.py 1459-1560: create_server; whether TLS is used *)
Definition create_server (host : option str) (port : option Z) (ssl : option ssl_arg) (sock : bool) : result (listener * bool) :=
  match ssl with
  | Some SslTrue | Some SslFalse => Raise TypeError
  | _ =>
    let tls := truthy ssl in
    match host, port with
    | None, None => if sock then Ok (ListenSock, tls) else Raise ValueError
    | _, _ => if sock then Raise ValueError else Ok (ListenTcp host port, tls)
    end
  end.

(* asyncio/unix_events.py 285-340: create_unix_server, for a path that isn't empty *)
Definition create_unix_server (path : option str) (ssl : option ssl_arg) (sock : bool) : result (listener * bool) :=
  match ssl with
  | Some SslTrue | Some SslFalse => Raise TypeError
  | _ =>
    let tls := truthy ssl in
    match path with
    | Some p => if sock then Raise ValueError else Ok (ListenUnix p, tls)
    | None => if sock then Ok (ListenSock, tls) else Raise ValueError
    end
  end.

(* legacy/server.py 848-949 and 970-973: await serve(...); the assertion is checked, Python isn't
   run with -O *)
Definition await_serve {P} (default : P) (a : serve_args P) : result (listener * bool * protocol_of P) :=
  let factory := choose_protocol default (sv_create_protocol a) (sv_klass a) in
  (* 904: kwargs.get("ssl") is not None *)
  let secure := match sv_ssl a with None | Some SslNone => false | Some _ => true end in
  (* 906-909 *)
  let! _ :=
    match sv_compression a with
    | None => Ok tt
    | Some c => if str_eqb c (s "deflate") then Ok tt else Raise ValueError
    end in
  let protocol := {| pr_factory := factory; pr_host := sv_host a; pr_port := sv_port a; pr_secure := secure |} in
  let! (l, tls) :=
    if sv_unix a then
      match sv_host a, sv_port a with
      | None, None => create_unix_server (sv_path a) (sv_ssl a) (sv_sock a)
      | _, _ => Raise AssertionError
      end
    else create_server (sv_host a) (sv_port a) (sv_ssl a) (sv_sock a) in
  Ok (l, tls, protocol).

(* legacy/server.py 983-1001: unix_serve(); path and unix can't be given twice *)
Definition unix_serve_args {P} (path : option str) (a : serve_args P) : serve_args P :=
  {| sv_host := sv_host a; sv_port := sv_port a; sv_path := path; sv_unix := true; sv_ssl := sv_ssl a; sv_sock := sv_sock a;
     sv_create_protocol := sv_create_protocol a; sv_klass := sv_klass a; sv_timeout := sv_timeout a; sv_compression := sv_compression a |}.

(* legacy/client.py 564-580: unix_connect() *)
Definition unix_connect_args (path : str) (a : connect_args) : connect_args :=
  {| ca_path := Some path; ca_ssl := ca_ssl a; ca_sock := ca_sock a; ca_host := ca_host a; ca_port := ca_port a |}.
Definition unix_connect_uri (uri : option str) : str := match uri with None => s "ws://localhost/" | Some u => u end.
