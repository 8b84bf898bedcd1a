(* Model of the call to handshake() in __await_impl__, src/websockets/legacy/client.py.  The
   attempts of connect() are in Model/Connect.v and the content of a request is in
   Model/Client.v. *)
From Verif Require Import Base.Prelude Model.Streams Model.Http11 Model.Connection Model.Handshake Model.Client Model.Connect.

(* legacy/client.py 537-543: the arguments of handshake() for an attempt.  self._wsuri is the URI
   of the attempt.  The others are attributes of the protocol; they're set by the protocol
   factory, which has the same arguments origin, extensions, subprotocols and extra_headers for
   all attempts.  An iterator given as extra_headers, which is exhausted by the first attempt,
   isn't modelled. *)
Definition attempt_config {E} (cfg : client_config E) (a : attempt) : client_config E :=
  {| cc_wsuri := at_uri a; cc_origin := cc_origin cfg; cc_extensions := cc_extensions cfg;
     cc_subprotocols := cc_subprotocols cfg; cc_extra_headers := cc_extra_headers cfg |}.

(* legacy/client.py 255-303: the request that handshake() sends, with a key *)
Definition attempt_request {E} (env : environment) (cfg : client_config E) (a : attempt) (key : str) : result request :=
  connect env (attempt_config cfg a) key.
