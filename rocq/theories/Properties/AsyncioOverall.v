(* C96: a client and a server of this library, from the opening handshake to the closing handshake (asyncio API). *)
From Verif Require Import Base.Prelude Base.PreludeFacts Model.Utils Model.Datastructures Model.Headers Model.Streams Model.Http11 Model.Frames
  Model.Connection Model.Handshake Model.Server Model.Client Model.PermessageDeflate Model.LegacyHandshake
  Spec.Rfc6455 Spec.FrameSpec Spec.Messages Spec.History Spec.Rfc7230 Spec.Multimap Spec.Http1 Spec.Handshake Spec.Deflate Spec.Negotiated
  Proofs.AgreementFacts Proofs.HandshakeRun Proofs.StoredZlib Properties.Handshake Properties.Agreement Properties.LegacyHandshake Properties.LegacyAgreement.
From Verif Require Model.LegacyProtocol Spec.AsyncioFailures Spec.AsyncioFromHandshake Proofs.DeflatePeer Properties.AsyncioFromHandshake.
Local Open Scope Z_scope.

(* The hypotheses about the configurations of the handshake are those of C85.  The configurations of the
   connections, which contain the limits and the timeouts, are arbitrary. *)
Theorem C96_end_to_end_partial : forall (zl : zlib) sync (sizes : Z -> Prop) senv cenv (scfg : server_config (pmd zl)) (ccfg : client_config (pmd zl)) hook token req,
  correct_zlib zl sync -> AsyncioFailures.truncates zl sync -> expands_little zl -> can_decompress zl -> sizes 15 ->
  all_opt (client_deflate sizes) (cc_extensions ccfg) -> all_opt (server_deflate sizes) (sc_extensions scfg) ->
  some_or_none (cc_extensions ccfg) -> some_or_none (cc_subprotocols ccfg) -> all_opt Rfc7230.token (cc_subprotocols ccfg) ->
  let cextra := match cc_extra_headers ccfg with Some l => l | None => [] end in
  no_handshake cextra -> at_most_once cextra (s "User-Agent") ->
  no_handshake (extra_for scfg req) -> sane_extra scfg req ->
  any_order senv -> allowed (sc_origins scfg) (cc_origin ccfg) ->
  length token = 16%nat -> connect cenv ccfg (generate_key token) = Ok req ->
  ascii (req_path req) -> ~ In 32%N (req_path req) -> ~ In 10%N (req_path req) -> (length (req_path req) + 15 <= 4110)%nat ->
  sendable (req_headers req) ->
  (forall h p, legacy_accept senv scfg req = Ok (h, p) -> sendable h) ->
  hook (req_path req) (req_headers req) = Ok None ->
  exists w h w' origin sexts cexts subprotocol,
    serialize_request req = Ok w /\ (forall rest, read_http_request (w ++ rest) = Ok req) /\
    legacy_accept senv scfg req = Ok (h, (origin, sexts, subprotocol)) /\
    legacy_response senv scfg hook true (Ok req) = Ok (101, h, None) /\
    serialize_response {| resp_status := 101; resp_reason := s "Switching Protocols"; resp_headers := h; resp_body := None; resp_exception := None |} = Ok w' /\
    (forall rest, read_http_response (w' ++ rest) = Ok (101, h)) /\
    legacy_client_handshake ccfg (generate_key token) 101 h = CeOpen cexts subprotocol /\
    forall client server : LegacyProtocol.config,
      LegacyProtocol.c_client client = true -> LegacyProtocol.c_client server = false ->
      (forall n, length (LegacyProtocol.c_key client n) = 4%nat) -> (forall n, length (LegacyProtocol.c_key server n) = 4%nat) ->
      AsyncioFromHandshake.understands client cexts server sexts /\ AsyncioFromHandshake.understands server sexts client cexts /\
      AsyncioFromHandshake.completes client cexts server sexts.
Proof.
  intros zl sync sizes senv cenv scfg ccfg hook token req Zc Tr Ex Cd S15 Pc Ps Nc Np Tp cextra Xc Ua Xs Sx O Al Lt Hc Pa P32 P10 Pl Sq Sr Hk.
  destruct (C85_agreement_partial zl sizes senv cenv scfg ccfg hook token req S15 Cd Pc Ps Nc Np Tp Xc Ua Xs Sx O Al Lt Hc Pa P32 P10 Pl Sq Sr Hk)
    as (w & h & w' & origin & sexts & cexts & sp & H1 & H2 & H3 & H4 & H5 & H6 & H7 & _ & _ & Ag & _).
  exists w, h, w', origin, sexts, cexts, sp. repeat (split; [assumption|]).
  intros client server Cl Sv Kc Ks.
  assert (Ag' : compress_alike cexts sexts).
  { destruct Ag as [(-> & ->)|(p & q & -> & -> & Rp & Rq & (M1 & M2 & M3 & M4))]; [now left|right].
    exists q, p. split; [reflexivity|]. split; [reflexivity|]. split; [exact Rq|]. split; [exact Rp|]. repeat split; congruence. }
  split; [apply (AsyncioFromHandshake.pair_understands zl sync); auto; now rewrite Cl, Sv|].
  split; [apply (AsyncioFromHandshake.pair_understands zl sync); auto; now rewrite Cl, Sv|].
  apply (AsyncioFromHandshake.pair_completes zl sync); auto; now rewrite Cl, Sv.
Qed.

(* The configurations of C85_applies: the client sends "Hi", which is compressed, and closes the connection. *)
Section Example_.
Import LegacyProtocol.
Definition ex_overall : option (list (nat * message) * option (Z * str) * bytes) :=
  let ccfg := agreeing_client (Some ex_offers) (Some [s "chat"; s "v2.chat"]) in
  let key := generate_key (b "the sample nonce") in
  let X := pmd_ops stored_zlib in
  match connect ex_env ccfg key with
  | Ok req =>
    match legacy_accept ex_env agreeing_server req with
    | Ok (h, (_, sexts, _)) =>
      match legacy_client_handshake ccfg key 101 h with
      | CeOpen cexts _ =>
        match exec X AsyncioState.ex_config (initial cexts)
          [LOpen; LC Go; LCall (CallSend (SData (PStr (s "Hi")))); LUser 0 Go; LUser 0 DrainOk; LCall (CallClose 1000 (s "bye")); LUser 1 Go] with
        | Some stA =>
          let w := flat_map o_bytes (p_out stA) in
          match exec X AsyncioEndToEnd.ex_server (initial sexts)
            [LOpen; LC Go; LData w; LT Go; LCall CallRecv; LUser 0 Go; LT Go] with
          | Some stB => Some (p_delivered stB, p_close stB, w)
          | None => None
          end
        | None => None
        end
      | _ => None
      end
    | Raise _ => None
    end
  | Raise _ => None
  end.
Example C96_applies :
  correct_zlib stored_zlib stored_sync /\ AsyncioFailures.truncates stored_zlib stored_sync /\
  expands_little stored_zlib /\ can_decompress stored_zlib /\
  exists w, ex_overall = Some ([(0%nat, MText (s "Hi"))], Some (1000, s "bye"), w) /\ hd_error w = Some (n2b 193).
Proof.
  split; [exact stored_correct|]. split; [exact DeflatePeer.stored_truncates|]. split; [exact stored_expands|]. split; [exact stored_can_decompress|].
  eexists. split; [vm_compute; reflexivity|reflexivity].
Qed.
End Example_.

Print Assumptions C96_end_to_end_partial.
