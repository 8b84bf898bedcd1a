(* C101: authentication with the credentials of a URI. *)
From Verif Require Import Base.Prelude Base.PreludeFacts Model.Datastructures Model.Headers Model.Streams Model.Http11 Model.Handshake
  Model.Server Model.Client Model.LegacyHandshake Model.Auth Model.Uri Spec.Rfc6455 Spec.Rfc7230 Spec.Multimap Spec.Http1 Spec.Handshake Spec.BasicAuth
  Proofs.MultimapFacts Proofs.HeadersFacts Proofs.HandshakeRun Proofs.Http11Facts Proofs.AcceptFacts Proofs.AuthFacts Proofs.AgreementFacts Properties.Auth
  Properties.Agreement Properties.Credentials.

(* A client whose URI has credentials and a server that requires authentication: if they are the
   credentials of a user, the response is that of the same server without authentication; if not,
   or if the URI doesn't have credentials, the response is 401, with the challenge. *)
Theorem C101_login : forall E F env cenv (cfg : server_config E) (ccfg : client_config F) key req credentials cs realm challenge next,
  connect cenv ccfg key = Ok req ->
  extra_values ccfg (s "Authorization") = [] -> at_most_once (match cc_extra_headers ccfg with Some l => l | None => [] end) (s "User-Agent") ->
  ascii (req_path req) -> ~ In 32%N (req_path req) -> ~ In 10%N (req_path req) -> (length (req_path req) + 15 <= 4110)%nat ->
  sendable (req_headers req) ->
  gives credentials cs -> build_www_authenticate_basic realm = Ok challenge ->
  exists w f, serialize_request req = Ok w /\ hard_coded credentials = Ok f /\ forall rest,
    let response := legacy_response env cfg (auth_process_request realm (fun u p => Ok (f u p)) next) true (read_http_request (w ++ rest)) in
    (forall u p, uri_user_info (cc_wsuri ccfg) = Some (u, p) -> configured cs u p ->
       response = legacy_response env cfg next true (Ok req)) /\
    ((forall u p, uri_user_info (cc_wsuri ccfg) = Some (u, p) -> ~ configured cs u p) ->
       exists h body, response = Ok (401%Z, h, Some body) /\ headers_get_all h (s "WWW-Authenticate") = [challenge]).
Proof.
  intros E F env cenv cfg ccfg key req credentials cs realm challenge next Hc Xa Ua Pa P32 P10 Pl Sq G B.
  destruct (request_view cenv ccfg key req Hc) as (b & c & V & A & N & _). specialize (V (s "Authorization")). rewrite Xa, N, app_nil_r in V by reflexivity. rewrite ?app_nil_r in V. cbn [app] in V. rewrite ?app_nil_r in V.
  destruct (connect_of cenv ccfg key req Ua Hc) as [auth Er]. set (l := request_pairs cenv ccfg key auth) in *.
  assert (Rh : req_headers req = headers_of l) by now rewrite Er.
  assert (Fl : Forall valid_header l /\ (length l <= 256)%nat).
  { destruct Sq as (l' & H & Fl & L). rewrite Rh in H. apply headers_of_inj in H. subst l'. auto. }
  destruct Fl as [Fl Ll]. destruct (serialized_request (req_path req) l Pa P32 P10 Pl Fl Ll) as (w & Hw & Mw).
  assert (Rq : {| req_path := req_path req; req_headers := headers_of l |} = req) by (rewrite <- Rh; now destruct req).
  rewrite Rq in Hw. destruct (hard_coded_iff credentials cs G) as (f & Hf & Ff). exists w, f. split; [exact Hw|]. split; [exact Hf|]. intros rest.
  assert (Rd : read_http_request (w ++ rest) = Ok req).
  { unfold read_http_request. rewrite (request_complete w (req_path req) l Mw {| r_buffer := w ++ rest; r_eof := true |} tt rest eq_refl). now rewrite Rq. }
  rewrite Rd. cbv zeta.
  assert (Vl : values l (s "Authorization") = b (s "Authorization")) by now rewrite <- V, Rh, (rep_get_all _ _ _ (rep_of l)).
  assert (Gi := rep_getitem _ _ (s "Authorization") (rep_of l)). rewrite Vl, <- Rh in Gi.
  split.
  - intros u p Hu C. rewrite Hu in A. destruct A as (v & Av & Pv). rewrite Av in Gi.
    unfold legacy_response, legacy_handshake, auth_process_request. rewrite Gi, Pv. cbn [rbind]. apply Ff in C. now rewrite C.
  - intros Nc. assert (X : exists message, auth_process_request realm (fun u p => Ok (f u p)) next (req_path req) (req_headers req) = unauthorized realm message).
    { unfold auth_process_request. rewrite Gi. destruct (uri_user_info (cc_wsuri ccfg)) as [[u p]|].
      - destruct A as (v & -> & Pv). rewrite Pv. cbn [rbind]. destruct (f u p) eqn:Q; [|eauto]. exfalso. apply (Nc u p eq_refl), Ff, Q.
      - cbn [authorization] in A. rewrite A. eauto. }
    destruct X as [message X]. now apply (answers_401 env cfg realm challenge message).
Qed.

(* With credentials in the URI and in extra_headers, even the same ones, the request has two
   Authorization headers, and the response is 500. *)
Theorem C101_two_headers_refuted : forall E F env cenv (cfg : server_config E) (ccfg : client_config F) key req realm check next u p v vs,
  connect cenv ccfg key = Ok req -> at_most_once (match cc_extra_headers ccfg with Some l => l | None => [] end) (s "User-Agent") ->
  uri_user_info (cc_wsuri ccfg) = Some (u, p) -> extra_values ccfg (s "Authorization") = v :: vs ->
  exists h body, legacy_response env cfg (auth_process_request realm check next) true (Ok req) = Ok (500%Z, h, Some body).
Proof.
  intros E F env cenv cfg ccfg key req realm check next u p v vs Hc Ua Hu Hv.
  destruct (request_view cenv ccfg key req Hc) as (b & c & V & A & N & _). specialize (V (s "Authorization")). rewrite Hv, N in V by reflexivity.
  rewrite Hu in A. destruct A as (x & Av & _). rewrite Av in V. cbn [app] in V.
  destruct (connect_of cenv ccfg key req Ua Hc) as [auth Er]. set (l := request_pairs cenv ccfg key auth) in *.
  assert (Rh : req_headers req = headers_of l) by now rewrite Er.
  apply (C36_malformed_credentials_refuted E env cfg realm check next req l Rh). right.
  rewrite Rh, (rep_get_all _ _ _ (rep_of l)) in V. eauto.
Qed.

(* connect("ws://hello:iloveyou@example.com/") and a server that has these credentials, or others *)
Definition login_config (user_info : option (str * str)) : client_config unit := {|
  cc_wsuri := {| uri_secure := false; uri_host := s "example.com"; uri_port := 80%Z; uri_resource_name := s "/"; uri_user_info := user_info |};
  cc_origin := None; cc_extensions := None; cc_subprotocols := None; cc_extra_headers := None |}.
Definition login_server : server_config unit := {|
  sc_origins := None; sc_extensions := None; sc_subprotocols := None; sc_extra_headers := fun _ _ => None |}.
Definition login_status (user_info : option (str * str)) (credentials : pyobj) : result Z :=
  let! req := connect ex_request_env (login_config user_info) (s "dGhlIHNhbXBsZSBub25jZQ==") in
  let! w := serialize_request req in
  let! f := hard_coded credentials in
  let! (status, _, _) := legacy_response ex_request_env login_server (auth_process_request (s "access") (fun u p => Ok (f u p)) (fun _ _ => Ok None)) true (read_http_request w) in
  Ok status.
Example C101_applies :
  login_status (Some (s "hello", s "iloveyou")) (PyTuple [PyStr (s "hello"); PyStr (s "iloveyou")]) = Ok 101%Z /\
  login_status (Some (s "hello", s "iloveyou")) (PyList [pair_of (s "hello", s "ihateyou"); pair_of (s "bob", s "iloveyou")]) = Ok 401%Z /\
  login_status None (PyTuple [PyStr (s "hello"); PyStr (s "iloveyou")]) = Ok 401%Z /\
  (exists req, connect ex_request_env (login_config (Some (s "hello", s "iloveyou"))) (s "dGhlIHNhbXBsZSBub25jZQ==") = Ok req /\
     sendable (req_headers req)).
Proof.
  split; [vm_compute; reflexivity|]. split; [vm_compute; reflexivity|]. split; [vm_compute; reflexivity|].
  eexists. split; [vm_compute; reflexivity|].
  exists [(s "Host", s "example.com"); (s "Authorization", s "Basic aGVsbG86aWxvdmV5b3U="); (s "Upgrade", s "websocket"); (s "Connection", s "Upgrade");
    (s "Sec-WebSocket-Key", s "dGhlIHNhbXBsZSBub25jZQ=="); (s "Sec-WebSocket-Version", s "13"); (s "User-Agent", env_user_agent ex_request_env)].
  split; [vm_compute; reflexivity|]. split; [apply header_ok_valid; vm_compute; reflexivity|]. vm_compute. lia.
Qed.

Definition both_config : client_config unit := {|
  cc_wsuri := cc_wsuri (login_config (Some (s "hello", s "iloveyou"))); cc_origin := None; cc_extensions := None; cc_subprotocols := None;
  cc_extra_headers := Some [(s "authorization", s "Basic aGVsbG86aWxvdmV5b3U=")] |}.
Example C101_two_headers_applies :
  extra_values both_config (s "Authorization") = [s "Basic aGVsbG86aWxvdmV5b3U="] /\
  option_map (fun req => headers_get_all (req_headers req) (s "Authorization"))
    (match connect ex_request_env both_config (s "dGhlIHNhbXBsZSBub25jZQ==") with Ok req => Some req | Raise _ => None end) =
    Some [s "Basic aGVsbG86aWxvdmV5b3U="; s "Basic aGVsbG86aWxvdmV5b3U="].
Proof. split; vm_compute; reflexivity. Qed.

Print Assumptions C101_login.
Print Assumptions C101_two_headers_refuted.
