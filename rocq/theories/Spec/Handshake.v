(* The opening handshake of RFC 6455 section 4, in terms of the (name, value) pairs of the
   headers of the request and of the response. *)
From Verif Require Import Base.Prelude Spec.Rfc7230 Spec.Multimap.
Local Open Scope N_scope.

(* A header that is a list may be given several times. *)
Section Combined.
Context {A : Type} (item : str -> A -> Prop).
Inductive combined : list str -> list A -> Prop :=
| combined_nil : combined [] []
| combined_cons v vs x y : field_value item v x -> combined vs y -> combined (v :: vs) (x ++ y).
End Combined.

(* case-insensitive comparison *)
Definition is_word (w x : str) : Prop := lower x = w.

(* The Connection header includes the token "upgrade". *)
Definition connection_upgrade (l : pairs) : Prop :=
  exists options, combined token_item (values l (s "Connection")) options /\ Exists (is_word (s "upgrade")) options.
(* The Upgrade header is "websocket". *)
Definition upgrade_websocket (l : pairs) : Prop :=
  exists p, combined protocol_item (values l (s "Upgrade")) [p] /\ is_word (s "websocket") p.

(* 16 bytes make 22 base64 digits.  The last 4 bits aren't checked. *)
Definition base64_digit (c : N) : Prop :=
  65 <= c <= 90 \/ 97 <= c <= 122 \/ 48 <= c <= 57 \/ c = 43 \/ c = 47.
Definition valid_key (key : str) : Prop :=
  exists x, key = x ++ s "==" /\ length x = 22%nat /\ Forall base64_digit x.
Definition key_header (l : pairs) : Prop :=
  exists key, values l (s "Sec-WebSocket-Key") = [key] /\ valid_key key.

Definition version_header (l : pairs) : Prop := values l (s "Sec-WebSocket-Version") = [s "13"].

(* The origin of a request; None without Origin header. *)
Definition has_origin (l : pairs) (origin : option str) : Prop :=
  values l (s "Origin") = match origin with Some o => [o] | None => [] end.
Definition allowed (origins : option (list (option str))) (origin : option str) : Prop :=
  match origins with None => True | Some os => In origin os end.

(* A server that supports extensions (or subprotocols) looks at the list of extensions (or
   subprotocols) offered by the client, which must be well-formed. *)
Definition supported {A} (o : option (list A)) : Prop := exists x l, o = Some (x :: l).
Definition offers_parse {A B} (o : option (list B)) (item : str -> A -> Prop) (l : pairs) (name : str) : Prop :=
  supported o -> exists offers, combined item (values l name) offers.

(* A valid request, for a server that allows these origins and supports these extensions and
   subprotocols. *)
Record valid_request {A B} (origins : option (list (option str))) (extensions : option (list A))
  (subprotocols : option (list B)) (l : pairs) : Prop := {
  vr_connection : connection_upgrade l;
  vr_upgrade : upgrade_websocket l;
  vr_key : key_header l;
  vr_version : version_header l;
  vr_origin : exists origin, has_origin l origin /\ allowed origins origin;
  vr_extensions : offers_parse extensions extension_item l (s "Sec-WebSocket-Extensions");
  vr_subprotocols : offers_parse subprotocols token_item l (s "Sec-WebSocket-Protocol") }.

(* The status of the response to a request that isn't valid.
   426: the Connection or Upgrade header is well-formed, but doesn't ask for WebSocket. *)
Definition bad_upgrade (l : pairs) : Prop :=
  (exists options, combined token_item (values l (s "Connection")) options /\ ~ Exists (is_word (s "upgrade")) options) \/
  (connection_upgrade l /\
   exists ps, combined protocol_item (values l (s "Upgrade")) ps /\ ~ exists p, ps = [p] /\ is_word (s "websocket") p).
(* 403: the handshake is correct up to the origin, which isn't allowed. *)
Definition bad_origin (origins : option (list (option str))) (l : pairs) : Prop :=
  connection_upgrade l /\ upgrade_websocket l /\ key_header l /\ version_header l /\
  exists origin, has_origin l origin /\ ~ allowed origins origin.
Definition rejection (origins : option (list (option str))) (l : pairs) (status : Z) : Prop :=
  (bad_upgrade l /\ status = 426%Z) \/ (bad_origin origins l /\ status = 403%Z) \/
  (~ bad_upgrade l /\ ~ bad_origin origins l /\ status = 400%Z).

(* Text without surrogates, which represent bytes that aren't ASCII in what is received. *)
Definition scalar (c : N) : Prop := c < 55296 \/ 57344 <= c < 1114112.
Definition unicode_text (x : str) : Prop := Forall scalar x.
Definition unicode_headers (l : pairs) : Prop := Forall (fun kv => unicode_text (snd kv)) l.

(* Each header appears at most once in a list. *)
Definition at_most_once (l : pairs) (k : str) : Prop := (length (values l k) <= 1)%nat.

(* ---- negotiation ---- *)
From Verif Require Import Model.Headers Model.Handshake.

(* The position of the first x in l. *)
Definition position {A} (x : A) (l : list A) (n : nat) : Prop :=
  exists pre post, l = pre ++ x :: post /\ ~ In x pre /\ length pre = n.
(* The best subprotocol: one that both sides list, with the least sum of positions. *)
Definition best (offered available : list str) (p : str) : Prop :=
  exists i j, position p offered i /\ position p available j /\
  forall q i' j', position q offered i' -> position q available j' -> (i + j <= i' + j')%nat.
(* The choice of a server *)
Definition choice (offered available : list str) (o : option str) : Prop :=
  match o with
  | Some p => best offered available p
  | None => forall p, In p offered -> ~ In p available
  end.
(* The subprotocol for a request with these headers, for a server that supports these
   subprotocols *)
Definition chosen (available : option (list str)) (l : pairs) (o : option str) : Prop :=
  match available with
  | None | Some [] => o = None
  | Some ps => exists offered, combined token_item (values l (s "Sec-WebSocket-Protocol")) offered /\ choice offered ps o
  end.

Section Extensions.
Context {E : Type}.

(* The first factory that accepts the parameters, among those with this name. *)
Definition server_accepts (fs : list (server_factory E)) (name : str) (p : params) (accepted : list E)
  (answer : params) (x : E) : Prop :=
  exists pre f post, fs = pre ++ f :: post /\ sf_name f = name /\
    sf_process_request_params f p accepted = Ok (answer, x) /\
    forall g, In g pre -> sf_name g = name -> exists e, sf_process_request_params g p accepted = Raise e.
Definition server_declines (fs : list (server_factory E)) (name : str) (p : params) (accepted : list E) : Prop :=
  forall g, In g fs -> sf_name g = name -> exists e, sf_process_request_params g p accepted = Raise e.

(* For these offers, in order, the server's answers are these and its extensions become
   these. *)
Inductive server_negotiates (fs : list (server_factory E)) : list E -> list ext_header -> list ext_header -> list E -> Prop :=
| sn_nil acc : server_negotiates fs acc [] [] acc
| sn_accept acc name p answer x offers answers exts :
    server_accepts fs name p acc answer x -> server_negotiates fs (acc ++ [x]) offers answers exts ->
    server_negotiates fs acc ((name, p) :: offers) ((name, answer) :: answers) exts
| sn_decline acc name p offers answers exts :
    server_declines fs name p acc -> server_negotiates fs acc offers answers exts ->
    server_negotiates fs acc ((name, p) :: offers) answers exts.

(* The answers to the request with these headers *)
Definition answers_for (o : option (list (server_factory E))) (l : pairs) (answers : list ext_header) (exts : list E) : Prop :=
  match o with
  | None | Some [] => answers = [] /\ exts = []
  | Some fs => exists offers, combined extension_item (values l (s "Sec-WebSocket-Extensions")) offers /\
                 server_negotiates fs [] offers answers exts
  end.

(* A client accepts the answers of the server. *)
Definition client_accepts (fs : list (client_factory E)) (name : str) (p : params) (accepted : list E) (x : E) : Prop :=
  exists pre f post, fs = pre ++ f :: post /\ cf_name f = name /\ cf_process_response_params f p accepted = Ok x /\
    forall g, In g pre -> cf_name g = name -> exists e, cf_process_response_params g p accepted = Raise e.
Inductive client_negotiates (fs : list (client_factory E)) : list E -> list ext_header -> list E -> Prop :=
| cn_nil acc : client_negotiates fs acc [] acc
| cn_accept acc name p x answers exts :
    client_accepts fs name p acc x -> client_negotiates fs (acc ++ [x]) answers exts ->
    client_negotiates fs acc ((name, p) :: answers) exts.

(* A valid response, for a client that expects this Sec-WebSocket-Accept and offered these
   extensions and subprotocols: the connection uses the extensions [exts] and the
   subprotocol [sp]. *)
Record valid_response (accept : str) (extensions : option (list (client_factory E)))
  (subprotocols : option (list str)) (status : Z) (l : pairs) (exts : list E) (sp : option str) : Prop := {
  vp_status : status = 101%Z;
  vp_connection : connection_upgrade l;
  vp_upgrade : upgrade_websocket l;
  vp_accept : values l (s "Sec-WebSocket-Accept") = [accept];
  vp_extensions : match values l (s "Sec-WebSocket-Extensions") with
    | [] => exts = []
    | vs => exists fs answers, extensions = Some fs /\ combined extension_item vs answers /\ client_negotiates fs [] answers exts
    end;
  vp_subprotocol : match values l (s "Sec-WebSocket-Protocol") with
    | [] => sp = None
    | vs => exists ps p, subprotocols = Some ps /\ combined token_item vs [p] /\ In p ps /\ sp = Some p
    end }.
End Extensions.

(* RFC 6455 section 4.2.2: the value of Sec-WebSocket-Accept, for an ASCII key.  SHA-1 and
   base64 are those of Base/Sha1.v and Base/Base64.v. *)
From Verif Require Import Base.Base64 Base.Sha1.
Definition accept_for (key : str) : str :=
  map b2n (b64encode (sha1 (map n2b (key ++ s "258EAFA5-E914-47DA-95CA-C5AB0DC85B11")))).

(* Headers added to a response unless they're present *)
Fixpoint with_defaults (l defaults : pairs) : pairs :=
  match defaults with
  | [] => l
  | (k, v) :: r => with_defaults (match values l k with [] => l ++ [(k, v)] | _ => l end) r
  end.
Definition optional (name : str) (v : option str) : pairs := match v with Some v => [(name, v)] | None => [] end.
