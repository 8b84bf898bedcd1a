(* C71-C72: the opening handshake of the legacy client and server, compared with that of the
   Sans-I/O client and server. *)
From Verif Require Import Base.Prelude Base.PreludeFacts Base.PyInt Base.Utf8 Base.Utf8Facts Base.Base64 Model.Datastructures Model.Headers Model.Http11 Model.Frames Model.Connection
  Model.Utils Model.Handshake Model.Server Model.Client
  Model.LegacyHandshake Model.Auth Spec.Utf8Spec Spec.Rfc7230 Spec.Multimap Spec.Handshake
  Proofs.Utf8SpecFacts Proofs.MultimapFacts Proofs.HeadersFacts Proofs.KeyFacts Proofs.HandshakeFacts Proofs.NegotiationFacts Proofs.HandshakeRun Proofs.AcceptFacts Properties.HeaderGrammar Properties.Connection Properties.Handshake.

(* What a client sees of a response with status and headers, or that there is none.  Only the
   text in the body of errors and the Content-Type of errors may differ. *)
Definition same_response (r : result response) (r' : result (Z * headers * option bytes)) : Prop :=
  match r, r' with
  | Ok resp, Ok (status, h, body) =>
      status = resp_status resp /\
      (status = 101%Z -> h = resp_headers resp /\ body = resp_body resp) /\
      (status <> 101%Z -> (exists text, body = Some text /\ headers_get_all h (s "Content-Length") = [str_of_N (lenN text)]) /\
        forall k, ~ In (lower k) [s "content-length"; s "content-type"] -> headers_get_all h k = headers_get_all (resp_headers resp) k)
  | Raise e, Raise e' => e = e'
  | _, _ => False
  end.

Lemma upgrade_similar sep h : match check_upgrade h, legacy_check_upgrade sep h with
  | Ok _, Ok _ => True
  | Raise e, Raise e' => e = e' \/ exists n v v', e = InvalidUpgrade n v /\ e' = InvalidUpgrade n v' /\ In n [s "Connection"; s "Upgrade"] /\
      (sep = s ", " -> v = v' \/ (v = None /\ v' = Some []))
  | _, _ => False
  end.
Proof.
  unfold check_upgrade, legacy_check_upgrade. destruct (Handshake.parse_all parse_connection (headers_get_all h (s "Connection"))) as [cs|e]; cbn [rbind]; [|auto].
  destruct (negb (existsb _ cs)).
  { right. eexists _, _, _. do 2 (split; [reflexivity|]). split; [now left|]. intros ->. destruct cs; [right; auto|now left]. }
  destruct (Handshake.parse_all parse_upgrade (headers_get_all h (s "Upgrade"))) as [us|e]; cbn [rbind]; [|auto].
  assert (G : match us with [] => True | _ => join_or_none us = Some (join (s ", ") us) end) by now destruct us.
  destruct us as [|u [|u' us]].
  - right. eexists _, _, _. do 2 (split; [reflexivity|]). split; [right; now left|]. auto.
  - destruct (str_eqb (lower u) (s "websocket")); [exact Logic.I|]. now left.
  - now left.
Qed.

Lemma same_rejection env e e' : (e = e' \/ exists n v, e = InvalidUpgrade n v /\ In n [s "Connection"; s "Upgrade"] /\ (e' = InvalidUpgrade n v \/ v = None /\ e' = InvalidUpgrade n (Some []))) ->
  same_response (reject_exception env e) (let! r := legacy_error e' in let! (status, h, body) := legacy_reject env r in Ok (status, h, Some body)).
Proof.
  intros H.
  assert (Gen : forall st phrase text text' (up : bool), st <> 101%Z -> (utf8_encode text = utf8_encode text' \/ exists x y, utf8_encode text = Ok x /\ utf8_encode text' = Ok y) ->
    reject_exception env e = (let! r := reject env st phrase text (if up then Some (headers_of [(s "Upgrade", s "websocket")]) else None) in Ok (with_exception r e)) ->
    legacy_error e' = (let! body := utf8_encode text' in Ok (st, if up then [(s "Upgrade", s "websocket")] else [], body)) ->
    same_response (reject_exception env e) (let! r := legacy_error e' in let! (status, h, body) := legacy_reject env r in Ok (status, h, Some body))).
  { intros st phrase text text' up Hst Hu -> ->. unfold reject.
    assert (B : (exists x y, utf8_encode text = Ok x /\ utf8_encode text' = Ok y) \/ exists er, utf8_encode text = Raise er /\ utf8_encode text' = Raise er).
    { destruct Hu as [Q|Q]; [|now left]. rewrite Q. destruct (utf8_encode text') as [x|er]; [left; eauto|right; eauto]. }
    destruct B as [(x & y & -> & ->)|(er & -> & ->)]; [|reflexivity]. cbn [rbind].
    replace (match (if up then Some (headers_of [(s "Upgrade", s "websocket")]) else None) with Some h => h | None => headers_empty end)
      with (headers_of (if up then [(s "Upgrade", s "websocket")] else [])) by now destruct up.
    unfold legacy_reject. rewrite !set_defaults_of.
    2,4: repeat constructor; cbn; intuition discriminate.
    2,3: intros kv [<-|[<-|[<-|[<-|[<-|[]]]]]]; unfold at_most_once; destruct up; vm_compute; lia.
    cbn [rbind]. split; [reflexivity|]. split; [contradiction|]. intros _. split.
    - exists y. split; [reflexivity|]. rewrite (rep_get_all _ _ _ (rep_of _)). destruct up; cbn - [str_of_N lenN n2b]; reflexivity.
    - intros k Hk. cbn [resp_headers with_exception].
      rewrite !(rep_get_all _ _ _ (rep_of _)).
      assert (K1 : same_name (s "Content-Length") k = false). { unfold same_name. destruct (str_eqb _ _) eqn:Q; [|reflexivity]. apply str_eqb_eq in Q. elim Hk. rewrite <- Q. left. reflexivity. }
      assert (K2 : same_name (s "Content-Type") k = false). { unfold same_name. destruct (str_eqb _ _) eqn:Q; [|reflexivity]. apply str_eqb_eq in Q. elim Hk. rewrite <- Q. right. left. reflexivity. }
      assert (Wd : forall ct body, with_defaults (if up then [(s "Upgrade", s "websocket")] else []) [(s "Date", env_date env); (s "Server", env_user_agent env);
          (s "Content-Length", str_of_N (lenN (A := byte) body)); (s "Content-Type", ct); (s "Connection", s "close")] =
        (if up then [(s "Upgrade", s "websocket")] else []) ++ [(s "Date", env_date env); (s "Server", env_user_agent env);
          (s "Content-Length", str_of_N (lenN body)); (s "Content-Type", ct); (s "Connection", s "close")]) by (intros; destruct up; reflexivity).
      rewrite !Wd, !values_app. f_equal. unfold values. cbn [filter fst snd]. rewrite K1, K2. reflexivity. }
  assert (Same : forall x : str, utf8_encode x = utf8_encode x \/ exists a c, utf8_encode x = Ok a /\ utf8_encode x = Ok c) by auto.
  destruct H as [<-|(n & v & -> & Hn & Hv)].
  - destruct e; try (eapply (Gen _ _ _ _ false); [| |reflexivity|reflexivity]; [discriminate|]; now apply Same);
      try (eapply (Gen _ _ _ _ true); [| |reflexivity|reflexivity]; [discriminate|]; now apply Same);
      (eapply (Gen 500%Z _ _ (s "Failed to open a WebSocket connection." ++ nl ++ s "See server log for more information." ++ nl) false); [discriminate|now apply Same|reflexivity|reflexivity]).
  - eapply (Gen _ _ _ _ true); [| |reflexivity|destruct Hv as [->|[-> ->]]; reflexivity]; [discriminate|].
    destruct Hv as [->|[-> ->]]; [now apply Same|]. right. destruct Hn as [<-|[<-|[]]]; eexists _, _; split; vm_compute; reflexivity.
Qed.

(* The legacy server and the Sans-I/O server, with the same arguments, give the same response to
   the same request. *)
Theorem C71_same_response : forall E env (cfg : server_config E) hook req l c,
  req_headers req = headers_of l -> polite_server_factories (sc_extensions cfg) -> sane_extra cfg req ->
  hook (req_path req) (req_headers req) = Ok None ->
  same_response (snd (accept env cfg req c)) (legacy_response env cfg hook true (Ok req)).
Proof.
  intros E env cfg hook req l c Hl P [Sd Ss] Hk. unfold legacy_response, legacy_handshake. rewrite Hk. unfold legacy_accept, check_request, accept.
  pose proof (process_request_view env cfg req l c Hl P) as W. unfold process_request in *.
  pose proof (upgrade_similar (s ", ") (req_headers req)) as U.
  destruct (check_upgrade (req_headers req)) as [u|e], (legacy_check_upgrade (s ", ") (req_headers req)) as [u'|e']; try contradiction; cbn [rbind] in *.
  2:{ apply same_rejection. destruct U as [->|(n & v & v' & -> & -> & Hn & Hv)]; [now left|]. right. exists n, v. split; [reflexivity|]. split; [exact Hn|].
      destruct (Hv eq_refl) as [->|[-> ->]]; auto. }
  destruct (request_key (req_headers req)) as [key|e]; cbn [rbind] in *; [|apply same_rejection; now left].
  destruct (request_version (req_headers req)) as [[]|e]; cbn [rbind] in *; [|apply same_rejection; now left].
  destruct (process_origin cfg (req_headers req)) as [o|e]; cbn [rbind] in *; [|apply same_rejection; now left].
  destruct (process_extensions cfg (req_headers req)) as [[eh x]|e]; cbn [rbind] in *; [|apply same_rejection; now left].
  destruct (process_subprotocol env cfg (req_headers req)) as [sp|e]; cbn [rbind snd] in *; [|apply same_rejection; now left].
  destruct W as (_ & _ & Kv & _).
  rewrite (accept_response_of env cfg req key eh sp (extra_for cfg req)); [|now apply valid_key_ascii|reflexivity|exact Sd|exact Ss].
  cbn. split; [reflexivity|]. split; [auto|]. now intros.
Qed.

(* The attributes of an open connection are also the same. *)
Theorem C71_same_parameters : forall E env (cfg : server_config E) req c h origin extensions subprotocol,
  legacy_accept env cfg req = Ok (h, (origin, extensions, subprotocol)) ->
  exists resp, accept env cfg req c = (set_subprotocol (set_exts (set_origin c origin) extensions) subprotocol, Ok resp) /\
    resp_status resp = 101%Z /\ resp_headers resp = h.
Proof.
  intros E env cfg req c h o x sp. unfold legacy_accept, check_request, accept, process_request.
  pose proof (upgrade_similar (s ", ") (req_headers req)) as U.
  destruct (check_upgrade (req_headers req)) as [u|e], (legacy_check_upgrade (s ", ") (req_headers req)) as [u'|e']; try contradiction; cbn [rbind]; [|discriminate].
  destruct (request_key (req_headers req)) as [key|e]; cbn [rbind]; [|discriminate].
  destruct (request_version (req_headers req)) as [[]|e]; cbn [rbind]; [|discriminate].
  destruct (process_origin cfg (req_headers req)) as [o'|e]; cbn [rbind]; [|discriminate].
  destruct (process_extensions cfg (req_headers req)) as [[eh x']|e]; cbn [rbind]; [|discriminate].
  destruct (process_subprotocol env cfg (req_headers req)) as [sp'|e]; cbn [rbind]; [|discriminate].
  destruct (accept_response env cfg req key eh sp') as [resp|e] eqn:A; cbn [rbind]; [|discriminate].
  intros H. apply ok_inj, pair_equal_spec in H as [H1 H2]. apply pair_equal_spec in H2 as [H2 ->]. apply pair_equal_spec in H2 as [-> ->].
  exists resp. split; [reflexivity|]. split; [|exact H1].
  unfold accept_response in A. destruct (accept_key key); [cbn [rbind] in A|discriminate]. destruct (set_defaults _ _); [cbn [rbind] in A|discriminate].
  apply ok_inj in A. now subst resp.
Qed.

(* A connection is opened if and only if the request is valid. *)
Theorem C71_opens_iff_valid_request : forall E env (cfg : server_config E) hook req l,
  req_headers req = headers_of l -> polite_server_factories (sc_extensions cfg) -> sane_extra cfg req -> any_order env ->
  hook (req_path req) (req_headers req) = Ok None ->
  ((exists h, legacy_response env cfg hook true (Ok req) = Ok (101%Z, h, None)) <->
   valid_request (sc_origins cfg) (sc_extensions cfg) (sc_subprotocols cfg) l).
Proof.
  intros E env cfg hook req l Hl P Sx O Hk. set (c := new_conn (E := E) SERVER CONNECTING None ex_keys).
  pose proof (C71_same_response E env cfg hook req l c Hl P Sx Hk) as S. split.
  - intros [h H]. rewrite H in S. destruct (accept env cfg req c) as [c' [resp|e]] eqn:A; [|contradiction]. cbn in S. destruct S as [S _].
    eapply C38_only_valid_requests_accepted; eauto.
  - intros V. destruct (C38_valid_request_accepted E env cfg req l c Hl P Sx O V) as (key & o & a & x & sp & _ & _ & _ & _ & A). rewrite A in S. cbn [snd] in S.
    destruct (legacy_response env cfg hook true (Ok req)) as [[[st h] body]|e]; [|contradiction]. destruct S as (-> & S & _). destruct (S eq_refl) as [-> ->]. eauto.
Qed.

Example C71_applies : sane_extra ex_config ex_request /\ polite_server_factories (sc_extensions ex_config) /\
  (exists h, legacy_response ex_env ex_config (fun _ _ => Ok None) true (Ok ex_request) = Ok (101%Z, h, None)) /\
  exists h body, legacy_response ex_env ex_config (fun _ _ => Ok None) true (Ok {| req_path := s "/"; req_headers := headers_of ex_bad_headers |}) = Ok (403%Z, h, Some body).
Proof.
  split; [split; unfold at_most_once; cbn; lia|]. split; [apply ex_polite|]. split; [eexists; vm_compute; reflexivity|]. eexists _, _. vm_compute. reflexivity.
Qed.

(* ---- C72 ---- *)

(* The legacy client and the Sans-I/O client accept the same responses. *)
Theorem C72_same_decision : forall E (cfg : client_config E) key resp c extensions subprotocol,
  legacy_client_handshake cfg key (resp_status resp) (resp_headers resp) = CeOpen extensions subprotocol <->
  process_response cfg key resp c = (set_subprotocol (set_exts c extensions) subprotocol, Ok tt).
Proof.
  intros E cfg key resp c x sp. unfold legacy_client_handshake, process_response, check_response.
  destruct (is_redirect (resp_status resp)) eqn:R.
  { split.
    - destruct (negb _); [discriminate|]. destruct (headers_getitem _ _); discriminate.
    - destruct (resp_status resp =? 101)%Z eqn:Q; cbn; [|discriminate]. apply Z.eqb_eq in Q. rewrite Q in R. discriminate. }
  destruct (negb (resp_status resp =? 101)%Z); [split; discriminate|].
  pose proof (upgrade_similar (s " ") (resp_headers resp)) as U.
  destruct (check_upgrade (resp_headers resp)), (legacy_check_upgrade (s " ") (resp_headers resp)); try contradiction; cbn [rbind fst snd]; [|split; discriminate].
  destruct (check_accept key (resp_headers resp)); cbn [rbind fst snd]; [|split; discriminate].
  destruct (process_response_extensions cfg (resp_headers resp)) as [x'|]; cbn [rbind fst snd]; [|split; discriminate].
  destruct (process_response_subprotocol cfg (resp_headers resp)) as [sp'|]; cbn [rbind fst snd]; [|split; discriminate].
  split.
  - intros H. injection H as -> ->. reflexivity.
  - intros H. apply pair_equal_spec in H as [H _]. assert (H1 := f_equal c_exts H). assert (H2 := f_equal c_subprotocol H). destruct c. cbn in H1, H2. now rewrite H1, H2.
Qed.

(* The connection is opened if and only if the response is valid. *)
Theorem C72_opens_iff_valid_response : forall E (cfg : client_config E) token status l,
  polite_client_factories (cc_extensions cfg) -> length token = 16 ->
  ((exists exts sp, legacy_client_handshake cfg (generate_key token) status (headers_of l) = CeOpen exts sp) <->
   (exists exts sp, valid_response (accept_for (generate_key token)) (cc_extensions cfg) (cc_subprotocols cfg) status l exts sp)).
Proof.
  intros E cfg token status l P L. set (c := new_conn (E := E) CLIENT CONNECTING None ex_keys).
  set (resp := {| resp_status := status; resp_reason := []; resp_headers := headers_of l; resp_body := None; resp_exception := None |}).
  assert (D := C72_same_decision E cfg (generate_key token) resp c). cbn [resp_status resp_headers resp] in D.
  pose proof (process_response_view cfg (generate_key token) resp l c eq_refl P (valid_key_ascii _ (generated_key_valid token L))) as V.
  destruct (process_response cfg (generate_key token) resp c) as [c' [[]|e]].
  - destruct V as (x & sp & V & ->). split; intros _; exists x, sp; [exact V|]. now apply D.
  - destruct V as (_ & N & _). split; intros (x & sp & H); exfalso; [|now apply (N x sp)]. apply D in H. discriminate.
Qed.

Definition ex_response_headers : pairs := [(s "Upgrade", s "websocket"); (s "Connection", s "Upgrade"); (s "Sec-WebSocket-Accept", s "s3pPLMBiTxaQ9kYGzzhZRbK+xOo=");
  (s "Sec-WebSocket-Extensions", s "x-test; y=1"); (s "Sec-WebSocket-Protocol", s "chat")].
Example C72_applies :
  legacy_client_handshake ex_client_config (generate_key (b "the sample nonce")) 101 (headers_of ex_response_headers) = CeOpen [tt] (Some (s "chat")) /\
  legacy_client_handshake ex_client_config (generate_key (b "the sample nonce")) 200 (headers_of ex_response_headers) = CeRaise (InvalidStatusCode 200) /\
  legacy_client_handshake ex_client_config (generate_key (b "the sample nonce")) 302 (headers_of [(s "Location", s "wss://example.org/")]) = CeRedirect (s "wss://example.org/") /\
  legacy_client_handshake ex_client_config (generate_key (b "another nonce!!!")) 101 (headers_of ex_response_headers) =
    CeRaise (InvalidHeaderValue (s "Sec-WebSocket-Accept") (Some (s "s3pPLMBiTxaQ9kYGzzhZRbK+xOo="))).
Proof. repeat split; vm_compute; reflexivity. Qed.

Print Assumptions C71_same_response.
Print Assumptions C71_same_parameters.
Print Assumptions C71_opens_iff_valid_request.
Print Assumptions C72_same_decision.
Print Assumptions C72_opens_iff_valid_response.
