(* C93: a client and a server of this library, from the opening handshake to the closing handshake (sans-I/O). *)
From Verif Require Import Base.Prelude Base.PreludeFacts Model.Utils Model.Datastructures Model.Headers Model.Streams Model.Http11 Model.Frames
  Model.Connection Model.Handshake Model.Server Model.Client Model.PermessageDeflate Spec.Rfc6455 Spec.FrameSpec Spec.Messages Spec.History Spec.Rfc7230 Spec.Multimap
  Spec.Http1 Spec.Handshake Spec.Deflate Spec.Negotiated Spec.Endpoints Spec.CompressedEndpoints
  Proofs.HandshakeFacts Proofs.HandshakeRun Proofs.AgreementFacts Proofs.StoredZlib Properties.Connection Properties.Handshake Properties.Agreement Proofs.SansIoEnds
  Proofs.EndpointsFacts Properties.CompressedEndpoints.

Lemma negotiated_sym {zl} (a b : endpoint (pmd zl)) : negotiated a b -> negotiated b a.
Proof.
  intros [(Ha & Hb)|(p & q & Ha & Hb & Pa & Pb & Mi)]; [left; split; assumption|right]. exists q, p.
  repeat (split; [assumption|]). now apply mirrored_sym.
Qed.
Lemma negotiated_delivered {zl} (e o : endpoint (pmd zl)) : good_zlib zl -> negotiated e o -> in_use zl e -> in_use zl o -> delivered (pmd_ops zl) e o.
Proof.
  intros Gz Ng Ue Uo fs gs rest R. destruct (C92_no_failure zl e o fs gs rest Gz Ng Ue Uo R) as [H _].
  split; [exact H|]. exact (C92_data zl e o fs gs rest Gz Ng Ue Uo R).
Qed.
Lemma negotiated_closes {zl} (a b : endpoint (pmd zl)) : good_zlib zl -> negotiated a b -> in_use zl a -> in_use zl b -> closes (pmd_ops zl) a b.
Proof.
  intros Gz Ng Ua Ub fa ga fb gb code reason Rb Ra Hc Nc e He.
  destruct (C92_same_code zl a b fa ga fb gb code reason Gz Ng Ua Ub Rb Ra Hc Nc) as (H1 & H2 & H3 & H4).
  destruct (both_connected a b Gz Ng) as (C1 & C2).
  destruct (send_close_sent (pmd_ops zl) (2 ^ 59) DeflateEnds.pmd_plain a fa ga code reason Ua (rf_sent _ _ _ _ _ _ Rb) Hc) as (f & F1 & F2 & _).
  apply (close_same (pmd_ops zl) (2 ^ 59) DeflateEnds.pmd_plain a b fa ga f Ua C1 (rf_sent _ _ _ _ _ _ Rb) F2) in F1.
  destruct (C92_closing_handshake zl a b fa ga fb gb Gz Ng Ua Ub Rb Ra) as (_ & _ & (S1 & S2) & _ & _ & H); [exists f; auto|].
  specialize (H e He). destruct He as [-> | ->]; auto.
Qed.

(* The hypotheses about the configurations are those of C41.  The server receives the client's request, in any number of
   chunks datas, and the client the server's response, in any number of chunks datas'; then anything happens, until the
   end of the stream. *)
Theorem C93_end_to_end : forall (zl : zlib) (sizes : Z -> Prop) senv cenv (scfg : server_config (pmd zl)) (ccfg : client_config (pmd zl)) token smax cmax skeys ckeys req,
  good_zlib zl -> sizes 15%Z ->
  all_opt (client_deflate sizes) (cc_extensions ccfg) -> all_opt (server_deflate sizes) (sc_extensions scfg) ->
  some_or_none (cc_extensions ccfg) -> some_or_none (cc_subprotocols ccfg) -> all_opt Rfc7230.token (cc_subprotocols ccfg) ->
  let cextra := match cc_extra_headers ccfg with Some l => l | None => [] end in
  no_handshake cextra -> at_most_once cextra (s "User-Agent") ->
  no_handshake (extra_for scfg req) -> sane_extra scfg req ->
  any_order senv -> allowed (sc_origins scfg) (cc_origin ccfg) ->
  length token = 16%nat -> connect cenv ccfg (generate_key token) = Ok req ->
  ascii (req_path req) -> ~ In 32%N (req_path req) -> ~ In 10%N (req_path req) -> (length (req_path req) + 15 <= 4110)%nat ->
  sendable (req_headers req) ->
  (forall resp, snd (accept senv scfg req (new_conn SERVER CONNECTING smax skeys)) = Ok resp -> sendable (resp_headers resp)) ->
  exists resp w w',
    serialize_request req = Ok w /\ serialize_response resp = Ok w' /\
    forall datas datas', concat datas = w -> concat datas' = w' ->
    exists rs rs' cs cc,
      (c_side cs = SERVER /\ c_max_size cs = smax /\ fresh OPEN cs) /\ (c_side cc = CLIENT /\ c_max_size cc = cmax /\ fresh OPEN cc) /\
      forall client server, e_conn client = cc -> e_conn server = cs -> in_use zl client -> in_use zl server ->
        server_history (pmd_ops zl) senv scfg smax skeys
          (map SCall (map CReceiveData datas) ++ [SCall CEventsReceived; SAccept req; SSendResponse resp; SCall CDataToSend] ++
           map SCall (e_calls server)) (e_state server)
          (rs ++ [SRet (REvents [EvRequest req]); SResponse (Ok resp); SRet RNone; SRet (RWrites [w'])] ++ map SRet (e_returned server)) /\
        client_history (pmd_ops zl) cenv ccfg (generate_key token) cmax ckeys
          ([KConnect; KSendRequest req; KCall CDataToSend] ++ map KCall (map CReceiveData datas') ++ [KCall CEventsReceived] ++
           map KCall (e_calls client)) (e_state client)
          ([KRequest (Ok req); KRet RNone; KRet (RWrites [w])] ++ rs' ++ [KRet (REvents [EvResponse resp])] ++ map KRet (e_returned client)) /\
        delivered (pmd_ops zl) client server /\ delivered (pmd_ops zl) server client /\
        closes (pmd_ops zl) client server /\ closes (pmd_ops zl) server client.
Proof.
  intros zl sizes senv cenv scfg ccfg token smax cmax skeys ckeys req Gz S15 Pc Ps Nc Np Tp cextra Xc Ua Xs Sx O Al Lt Hc Pa P32 P10 Pl Sq Sr.
  assert (Cd : can_decompress zl) by (destruct Gz as (sync & _ & _ & Cd); exact Cd).
  destruct (C41_agreement_partial zl sizes (pmd_ops zl) senv cenv scfg ccfg token smax cmax skeys ckeys req S15 Cd Pc Ps Nc Np Tp Xc Ua Xs Sx O Al Lt Hc Pa P32 P10 Pl Sq Sr)
    as (resp & w & w' & Hw & Hw' & H). exists resp, w, w'. split; [exact Hw|]. split; [exact Hw'|]. intros datas datas' Ed Ed'.
  destruct (H datas datas' Ed Ed') as (ms & rs & mc & rs' & cs & cc & Hs & Hk & -> & -> & Fs & Fc & Ss & Sc & _ & _ & _ & Al' & _ & _ & Ms & Mc).
  exists rs, rs', cs, cc. split; [auto|]. split; [auto|]. intros a b Ea Eb Ia Ib.
  assert (Ng : negotiated b a) by (unfold negotiated; now rewrite Ea, Eb).
  split.
  { unfold server_history in *. rewrite app_assoc, server_run_app, Hs, server_run_calls. cbn [fst snd].
    pose proof (iu_calls _ _ _ Ib) as Q. rewrite Eb in Q. rewrite Q. cbn [fst snd]. now rewrite <- !app_assoc. }
  split.
  { unfold client_history in *.
    replace ([KConnect; KSendRequest req; KCall CDataToSend] ++ map KCall (map CReceiveData datas') ++ [KCall CEventsReceived] ++ map KCall (e_calls a))
      with (([KConnect; KSendRequest req; KCall CDataToSend] ++ map KCall (map CReceiveData datas') ++ [KCall CEventsReceived]) ++ map KCall (e_calls a))
      by (now rewrite <- !app_assoc).
    rewrite client_run_app, Hk, client_run_calls. cbn [fst snd].
    pose proof (iu_calls _ _ _ Ia) as Q. rewrite Ea in Q. rewrite Q. cbn [fst snd]. now rewrite <- !app_assoc. }
  split; [apply negotiated_delivered; auto using negotiated_sym|]. split; [apply negotiated_delivered; auto|].
  split; apply negotiated_closes; auto using negotiated_sym.
Qed.

(** The configurations of C41_applies: the client sends a message, then closes the connection. *)
Definition ex_cfg := agreeing_client (Some ex_offers) (Some [s "chat"; s "v2.chat"]).
Definition ex_key : str := generate_key (b "the sample nonce").
Definition bytes_of (rs : list ret) : bytes := concat (flat_map (fun r => match r with RWrites l => l | _ => [] end) rs).
Definition ex_run : option (list frame * option Z * option str * option Z * bytes) :=
  match connect ex_env ex_cfg ex_key with
  | Ok req =>
      match snd (accept ex_env agreeing_server req (new_conn SERVER CONNECTING (Some 1000%Z) ex_keys)), serialize_request req with
      | Ok resp, Ok w =>
          match serialize_response resp with
          | Ok w' =>
              let X := pmd_ops stored_zlib in
              let server := fst (server_run X ex_env agreeing_server (new_server X (Some 1000%Z) ex_keys)
                [SCall (CReceiveData (firstn 5 w)); SCall (CReceiveData (skipn 5 w)); SCall CEventsReceived; SAccept req; SSendResponse resp; SCall CDataToSend]) in
              let client := fst (client_run X ex_env ex_cfg ex_key (new_client X ex_cfg ex_key (Some 1000%Z) ex_keys)
                [KConnect; KSendRequest req; KCall CDataToSend; KCall (CReceiveData w'); KCall CEventsReceived]) in
              let (client, rs) := do_calls X client [CSendText (b "Hi") true; CSendClose (Some 1000%Z) (s "bye"); CDataToSend] in
              let (server, rs') := do_calls X server [CReceiveData (bytes_of rs)] in
              let client := fst (do_calls X client [CReceiveData (concat (c_writes (m_conn server)))]) in
              Some (frames_of (c_events (m_conn server)), c_close_code (m_conn server), c_close_reason (m_conn server), c_close_code (m_conn client), bytes_of rs)
          | _ => None
          end
      | _, _ => None
      end
  | _ => None
  end.
Example C93_applies : good_zlib stored_zlib /\
  exists f bytes, ex_run = Some ([mkframe true TEXT (b "Hi"); f], Some 1000%Z, Some (s "bye"), Some 1000%Z, bytes) /\ hd_error bytes = Some (n2b 193).
Proof.
  split; [exists stored_sync; split; [exact stored_correct|split; [exact stored_expands|exact stored_can_decompress]]|].
  eexists _, _. split; [vm_compute; reflexivity|reflexivity].
Qed.

Print Assumptions C93_end_to_end.
