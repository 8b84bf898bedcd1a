(* C85: a client and a server of the asyncio implementation agree after the handshake. *)
From Verif Require Import Base.Prelude Base.PreludeFacts Model.Utils Model.Datastructures Model.Headers Model.Streams Model.Http11 Model.Frames
  Model.Connection Model.Handshake Model.Server Model.Client Model.PermessageDeflate Model.LegacyHandshake
  Spec.Rfc6455 Spec.FrameSpec Spec.Messages Spec.History Spec.Rfc7230 Spec.Multimap Spec.Http1 Spec.Handshake Spec.Deflate Spec.Negotiated
  Proofs.AtomicFacts Proofs.StreamsFacts Proofs.MultimapFacts Proofs.HeadersFacts Proofs.KeyFacts Proofs.HandshakeFacts Proofs.NegotiationFacts Proofs.AcceptFacts Proofs.HandshakeRun
  Proofs.AgreementFacts Proofs.Http11Facts Proofs.DeflateFacts Properties.HeaderGrammar Properties.Connection Properties.Http Properties.Handshake Properties.Deflate
  Properties.Agreement Properties.LegacyHandshake.
Local Open Scope Z_scope.

(* read_response, in legacy/http.py *)
Lemma legacy_response_complete {S} w status reason l : response_head w status reason l -> forall r (x : S) rest, r_buffer r = w ++ rest ->
  run read_response r x = ODone (status, reason, headers_of l) (with_buffer r rest) x.
Proof.
  intros (w0 & st & raw & w1 & -> & L & Ns & Pi & Rg & Ft & Ud & Fs & Ln) r x rest E. rewrite <- !app_assoc in E.
  unfold read_response. rewrite (parse_line_ok _ r x _ _ _ E L).
  assert (Sp : split3 (b "HTTP/1.1 " ++ st ++ b " " ++ raw) = Some (b "HTTP/1.1", st, raw)).
  { apply split3_iff. split; [reflexivity|]. split; [|exact Ns]. cbn. intuition discriminate. }
  rewrite Sp. change (negb (bytes_eqb (b "HTTP/1.1") (b "HTTP/1.1"))) with false. cbn iota. rewrite Pi.
  assert (Rb : negb ((100 <=? status)%Z && (status <? 1000)%Z) = false).
  { apply negb_false_iff, andb_true_iff. rewrite Z.leb_le, Z.ltb_lt. lia. }
  rewrite Rb. rewrite (proj2 (value_fullmatch_iff raw) Ft). cbn [negb]. rewrite Ud. cbn [glift gbind].
  rewrite run_gbind. unfold parse_headers, MAX_HEADERS. change (256 + 1)%nat with (Datatypes.S 256).
  rewrite (headers_complete w1 l Fs 256 headers_empty (with_buffer r (w1 ++ crlf ++ rest)) x rest Ln eq_refl).
  reflexivity.
Qed.

Lemma legacy_upgrade_ok sep l : values l (s "Upgrade") = [s "websocket"] -> values l (s "Connection") = [s "Upgrade"] ->
  legacy_check_upgrade sep (headers_of l) = Ok tt.
Proof.
  intros V1 V2. pose proof (upgrade_similar sep (headers_of l)) as U. rewrite (upgrade_ok l V1 V2) in U.
  destruct (legacy_check_upgrade sep (headers_of l)) as [[]|]; [reflexivity|contradiction].
Qed.

(* A client and a server of this library, with any configuration that satisfies the hypotheses of
   C41_agreement_partial, and a server whose process_request doesn't answer the request itself.  The server
   reads the request that the client wrote, and opens the connection; the client reads the response that
   the server wrote, even if frames follow it at once, and opens the connection; they agree.
   Missing: the same as in C41_agreement_partial, for the same reasons. *)
Theorem C85_agreement_partial : forall (zl : zlib) (sizes : Z -> Prop) senv cenv (scfg : server_config (pmd zl)) (ccfg : client_config (pmd zl)) hook token req,
  sizes 15 -> can_decompress zl ->
  all_opt (client_deflate sizes) (cc_extensions ccfg) -> all_opt (server_deflate sizes) (sc_extensions scfg) ->
  some_or_none (cc_extensions ccfg) -> some_or_none (cc_subprotocols ccfg) -> all_opt Rfc7230.token (cc_subprotocols ccfg) ->
  let cextra := match cc_extra_headers ccfg with Some l => l | None => [] end in
  no_handshake cextra -> at_most_once cextra (s "User-Agent") ->
  no_handshake (extra_for scfg req) -> sane_extra scfg req ->
  any_order senv -> allowed (sc_origins scfg) (cc_origin ccfg) ->
  length token = 16%nat -> connect cenv ccfg (generate_key token) = Ok req ->
  ascii (req_path req) -> ~ In 32%N (req_path req) -> ~ In 10%N (req_path req) -> (length (req_path req) + 15 <= 4110)%nat ->
  sendable (req_headers req) ->
  (forall h p, legacy_accept senv scfg req = Ok (h, p) -> sendable h) ->
  hook (req_path req) (req_headers req) = Ok None ->
  exists w h w' origin sexts cexts subprotocol,
    serialize_request req = Ok w /\ (forall rest, read_http_request (w ++ rest) = Ok req) /\
    legacy_accept senv scfg req = Ok (h, (origin, sexts, subprotocol)) /\
    legacy_response senv scfg hook true (Ok req) = Ok (101, h, None) /\
    serialize_response {| resp_status := 101; resp_reason := s "Switching Protocols"; resp_headers := h; resp_body := None; resp_exception := None |} = Ok w' /\
    (forall rest, read_http_response (w' ++ rest) = Ok (101, h)) /\
    legacy_client_handshake ccfg (generate_key token) 101 h = CeOpen cexts subprotocol /\
    (forall p, subprotocol = Some p -> exists ps qs, cc_subprotocols ccfg = Some ps /\ sc_subprotocols scfg = Some qs /\ In p ps /\ In p qs) /\
    (subprotocol = None -> forall ps qs p, cc_subprotocols ccfg = Some ps -> sc_subprotocols scfg = Some qs -> In p ps -> ~ In p qs) /\
    compress_alike sexts cexts /\
    (sexts = [] -> forall fs gs f g, cc_extensions ccfg = Some fs -> sc_extensions scfg = Some gs -> In f fs -> In g gs -> unlimited f /\ limits g) /\
    origin = cc_origin ccfg.
Proof.
  intros zl sizes senv cenv scfg ccfg hook token req S15 Cd Pc Ps Nc Np Tp cextra Xc Ua Xs Sx O Al Lt Hc Pa P32 P10 Pl Sq Sr Hk.
  destruct (connect_of cenv ccfg (generate_key token) req Ua Hc) as [auth Er].
  set (l := request_pairs cenv ccfg (generate_key token) auth) in *.
  destruct (request_values cenv ccfg (generate_key token) auth Xc) as (V1 & V2 & V3 & V4 & V5 & V6 & V7). fold l in V1, V2, V3, V4, V5, V6, V7.
  assert (Rh : req_headers req = headers_of l) by now rewrite Er.
  assert (Fl : Forall valid_header l /\ (length l <= 256)%nat).
  { destruct Sq as (l' & H & F & L). rewrite Rh in H. apply headers_of_inj in H. subst l'. auto. }
  destruct Fl as [Fl Ll].
  destruct (serialized_request (req_path req) l Pa P32 P10 Pl Fl Ll) as (w & Hw & Mw).
  assert (Rq : {| req_path := req_path req; req_headers := headers_of l |} = req) by (rewrite <- Rh; now destruct req).
  rewrite Rq in Hw.
  destruct (client_extensions_agree sizes scfg ccfg S15 Cd Pc Ps Nc l [] V6) as (eh & xs & He & _).
  destruct (client_subprotocols_agree senv scfg ccfg Np Tp l [] O V7) as (sp & Hs & Sp1 & Sp2 & _).
  assert (Kv := generated_key_valid token Lt). assert (Ka := valid_key_ascii _ Kv).
  set (lr := with_defaults
      ([(s "Upgrade", s "websocket"); (s "Connection", s "Upgrade"); (s "Sec-WebSocket-Accept", accept_for (generate_key token))]
       ++ optional (s "Sec-WebSocket-Extensions") eh ++ optional (s "Sec-WebSocket-Protocol") sp ++ extra_for scfg req) (standard senv)).
  assert (Ha : legacy_accept senv scfg req = Ok (headers_of lr, (cc_origin ccfg, xs, sp))).
  { unfold legacy_accept, check_request. rewrite Rh, (legacy_upgrade_ok _ l V1 V2), (key_ok l token Lt V3), (version_ok l V4), (origin_ok scfg l _ V5 Al). cbn [rbind].
    rewrite He. rewrite Hs. cbn [rbind]. rewrite (accept_response_of senv scfg req (generate_key token) eh sp (extra_for scfg req)); [|exact Ka|reflexivity|apply Sx|apply Sx]. reflexivity. }
  destruct (response_values senv (generate_key token) eh sp (extra_for scfg req) Xs) as (W1 & W2 & W3 & W4 & W5 & W6). fold lr in W1, W2, W3, W4, W5, W6.
  clearbody lr.
  destruct (client_extensions_agree sizes scfg ccfg S15 Cd Pc Ps Nc l lr V6) as (eh' & xs' & He' & Un & Ag).
  rewrite He in He'. apply ok_inj, pair_equal_spec in He' as [<- <-]. destruct (Ag W4) as (ys & Hy & Mi). clear Ag.
  destruct (client_subprotocols_agree senv scfg ccfg Np Tp l lr O V7) as (sp' & Hs' & _ & _ & Ag).
  rewrite Hs in Hs'. apply ok_inj in Hs'. subst sp'. specialize (Ag W5).
  assert (Sr' := Sr _ _ Ha). destruct Sr' as (lr' & H & Fr & Lr). apply headers_of_inj in H. subst lr'.
  destruct (serialized_head 101 (s "Switching Protocols") lr None ltac:(lia) switching_reason Fr Lr) as (w' & Rw & Hw').
  { intros e H. vm_compute in H. apply ok_inj in H. subst e. vm_compute. lia. }
  rewrite app_nil_r in Hw'.
  exists w, (headers_of lr), w', (cc_origin ccfg), xs, ys, sp. split; [exact Hw|]. split.
  { intros rest. unfold read_http_request.
    rewrite (request_complete w (req_path req) l Mw {| r_buffer := w ++ rest; r_eof := true |} tt rest eq_refl). now rewrite Rq. }
  split; [exact Ha|]. split.
  { unfold legacy_response, legacy_handshake. now rewrite Hk, Ha. }
  split; [exact Hw'|]. split.
  { intros rest. unfold read_http_response.
    now rewrite (legacy_response_complete w' 101 _ lr Rw {| r_buffer := w' ++ rest; r_eof := true |} tt rest eq_refl). }
  split.
  { unfold legacy_client_handshake, check_response. cbn [is_redirect existsb Z.eqb Pos.eqb orb negb]. rewrite (legacy_upgrade_ok _ lr W1 W2). cbn [rbind].
    assert (Ck : check_accept (generate_key token) (headers_of lr) = Ok tt).
    { unfold check_accept, get_single. rewrite (rep_getitem _ _ _ (rep_of lr)), W3. cbn [rbind]. rewrite (C42_accept_key _ Ka). cbn [rbind].
      now rewrite (proj2 (str_eqb_eq _ _) eq_refl). }
    rewrite Ck. cbn [rbind]. now rewrite Hy, Ag. }
  split; [exact Sp1|]. split; [exact Sp2|]. split; [exact Mi|]. split; [exact Un|reflexivity].
Qed.

(* the configurations of C41_applies *)
Example C85_applies :
  let cfg := agreeing_client (Some ex_offers) (Some [s "chat"; s "v2.chat"]) in
  exists req h p, connect ex_env cfg (generate_key (b "the sample nonce")) = Ok req /\
    sendable (req_headers req) /\ legacy_accept ex_env agreeing_server req = Ok (h, p) /\ sendable h /\
    headers_get_all h (s "Sec-WebSocket-Extensions") =
      [s "permessage-deflate; server_no_context_takeover; client_no_context_takeover; server_max_window_bits=12; client_max_window_bits=10"] /\
    headers_get_all h (s "Sec-WebSocket-Protocol") = [s "chat"].
Proof.
  assert (Sd : forall h, h = headers_of (h_list h) -> forallb header_ok (h_list h) = true -> (length (h_list h) <= 256)%nat -> sendable h).
  { intros h H1 H2 H3. exists (h_list h). split; [exact H1|]. split; [now apply header_ok_valid|exact H3]. }
  eexists _, _, _. split; [vm_compute; reflexivity|].
  split; [apply Sd; vm_compute; [reflexivity|reflexivity|lia]|].
  split; [vm_compute; reflexivity|].
  split; [apply Sd; vm_compute; [reflexivity|reflexivity|lia]|].
  split; vm_compute; reflexivity.
Qed.

Print Assumptions C85_agreement_partial.
