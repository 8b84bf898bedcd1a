(* C38-C40, C42-C44, C51, and C07 for servers and clients: the opening handshake. *)
From Coq Require Import Permutation.
From Verif Require Import Base.Prelude Base.PreludeFacts Base.Utf8 Base.Utf8Facts Base.Base64 Base.Sha1 Model.Utils
  Model.Datastructures Model.Streams Model.Http11 Model.Headers Model.Frames Model.Connection Model.Handshake Model.Server Model.Client
  Spec.Rfc7230 Spec.Multimap Spec.Http1 Spec.History Spec.Handshake
  Proofs.StreamsFacts Proofs.MultimapFacts Proofs.ParserFacts Proofs.AtomicFacts Proofs.ConnectionFacts Proofs.KeyFacts Proofs.HandshakeFacts
  Proofs.NegotiationFacts Proofs.Phases Proofs.HandshakeRun Proofs.AcceptFacts Properties.Connection Properties.FrameCodec.

(* Extension factories report that they don't accept parameters with NegotiationError. *)
Definition polite_server_factories {E} (o : option (list (server_factory E))) : Prop :=
  forall fs f, o = Some fs -> In f fs ->
  forall p accepted e, sf_process_request_params f p accepted = Raise e -> is_negotiation_error e = true.
Definition polite_client_factories {E} (o : option (list (client_factory E))) : Prop :=
  forall fs f, o = Some fs -> In f fs ->
  forall p accepted e, cf_process_response_params f p accepted = Raise e -> is_negotiation_error e = true.

(* extra_headers for a request *)
Definition extra_for {E} (cfg : server_config E) (req : request) : pairs :=
  match sc_extra_headers cfg (req_path req) (req_headers req) with Some l => l | None => [] end.
Definition sane_extra {E} (cfg : server_config E) (req : request) : Prop :=
  at_most_once (extra_for cfg req) (s "Date") /\ at_most_once (extra_for cfg req) (s "Server").

Definition any_order (env : environment) : Prop := forall l, Permutation (env_set_order env l) l.

(* ---- C42 ---- *)

Theorem C42_accept_key : forall key, Forall (fun c => (c < 128)%N) key -> accept_key key = Ok (accept_for key).
Proof. apply accept_key_for. Qed.

Theorem C42_generated_keys_valid : forall token, length token = 16 -> valid_key (generate_key token).
Proof. apply generated_key_valid. Qed.

Example C42_applies : accept_for (s "dGhlIHNhbXBsZSBub25jZQ==") = s "s3pPLMBiTxaQ9kYGzzhZRbK+xOo=" /\
  generate_key (b "the sample nonce") = s "dGhlIHNhbXBsZSBub25jZQ==".
Proof. vm_compute. auto. Qed.

(* ---- C43 ---- *)

Theorem C43_subprotocol_choice : forall env offered available, any_order env ->
  choice offered available (select_subprotocol env offered available).
Proof. intros. now apply select_choice. Qed.

Definition ex_env : environment := {|
  env_user_agent := s "Python/3.9 websockets/10.0"; env_date := s "Mon, 16 Nov 2026 11:20:38 GMT";
  env_is_ipv6 := fun _ => false; env_set_order := fun l => rev l |}.
Definition other_env : environment := {|
  env_user_agent := []; env_date := []; env_is_ipv6 := fun _ => false; env_set_order := fun l => l |}.
(* here the choice depends on the order of a set *)
Example C43_applies : any_order ex_env /\ any_order other_env /\
  select_subprotocol ex_env [s "a"; s "b"; s "c"] [s "c"; s "b"; s "d"] = Some (s "c") /\
  select_subprotocol other_env [s "a"; s "b"; s "c"] [s "c"; s "b"; s "d"] = Some (s "b").
Proof.
  split; [intros l; symmetry; apply Permutation_rev|]. split; [intros l; apply Permutation_refl|]. split; reflexivity.
Qed.

(* ---- C38 ---- *)

(* The headers of the response that accepts a request *)
Definition accepting_headers (env : environment) (key : str) (answers : list ext_header) (sp : option str) (extra : pairs) : pairs :=
  with_defaults
    ([(s "Upgrade", s "websocket"); (s "Connection", s "Upgrade"); (s "Sec-WebSocket-Accept", accept_for key)]
     ++ optional (s "Sec-WebSocket-Extensions") (match answers with [] => None | _ => Some (build_extension answers) end)
     ++ optional (s "Sec-WebSocket-Protocol") sp ++ extra)
    [(s "Date", env_date env); (s "Server", env_user_agent env)].

Lemma reject_status env st ph text hs r : reject env st ph text hs = Ok r -> resp_status r = st.
Proof.
  unfold reject. destruct (utf8_encode text); cbn [rbind]; [|discriminate].
  destruct (set_defaults _ _); cbn [rbind]; [|discriminate]. intros Q. apply ok_inj in Q. now subst r.
Qed.
Lemma reject_exception_status env e r : reject_exception env e = Ok r -> resp_status r <> 101%Z.
Proof.
  unfold reject_exception.
  assert (K : forall st ph text hs, st <> 101%Z ->
    (let! r := reject env st ph text hs in Ok (with_exception r e)) = Ok r -> resp_status r <> 101%Z).
  { intros st ph text hs N. destruct (reject env st ph text hs) as [r'|] eqn:Q; cbn [rbind]; [|discriminate].
    intros H. apply ok_inj in H. subst r. apply reject_status in Q. cbn. congruence. }
  destruct e; try (apply K; discriminate); destruct (is_invalid_handshake _); apply K; discriminate.
Qed.

(* A valid request is accepted, with the response and the parameters that the RFC specifies. *)
Theorem C38_valid_request_accepted : forall E env (cfg : server_config E) req l c,
  req_headers req = headers_of l -> polite_server_factories (sc_extensions cfg) -> sane_extra cfg req -> any_order env ->
  valid_request (sc_origins cfg) (sc_extensions cfg) (sc_subprotocols cfg) l ->
  exists key origin answers exts sp,
    values l (s "Sec-WebSocket-Key") = [key] /\ has_origin l origin /\
    answers_for (sc_extensions cfg) l answers exts /\ chosen (sc_subprotocols cfg) l sp /\
    accept env cfg req c =
      (set_subprotocol (set_exts (set_origin c origin) exts) sp,
       Ok {| resp_status := 101; resp_reason := s "Switching Protocols";
             resp_headers := headers_of (accepting_headers env key answers sp (extra_for cfg req));
             resp_body := None; resp_exception := None |}).
Proof.
  intros E env cfg req l c Hh P [Sd Ss] O V. unfold accept.
  pose proof (process_request_view env cfg req l c Hh P) as W. destruct (process_request env cfg req c) as [c' [[[key eh] sp]|e]].
  2:{ now destruct W as (N & _). }
  destruct W as (_ & Hk & Kv & origin & exts & Ho & _ & Hx & Hs & ->).
  apply process_extensions_answers in Hx as (answers & Ha & ->). apply (process_subprotocol_chosen _ _ _ _ O) in Hs.
  exists key, origin, answers, exts, sp. split; [exact Hk|]. split; [exact Ho|]. split; [exact Ha|]. split; [exact Hs|].
  f_equal. rewrite (accept_response_of env cfg req key _ sp (extra_for cfg req)); [reflexivity|now apply valid_key_ascii|reflexivity|exact Sd|exact Ss].
Qed.

(* Only valid requests are accepted. *)
Theorem C38_only_valid_requests_accepted : forall E env (cfg : server_config E) req l c c' resp,
  req_headers req = headers_of l -> polite_server_factories (sc_extensions cfg) ->
  accept env cfg req c = (c', Ok resp) -> resp_status resp = 101%Z ->
  valid_request (sc_origins cfg) (sc_extensions cfg) (sc_subprotocols cfg) l.
Proof.
  intros E env cfg req l c c' resp Hh P. unfold accept.
  pose proof (process_request_view env cfg req l c Hh P) as W. destruct (process_request env cfg req c) as [c1 [[[key eh] sp]|e]].
  1:{ intros _ _. apply W. }
  intros H Hs. apply pair_equal_spec in H as [_ H]. exfalso. revert Hs. now apply (reject_exception_status env e).
Qed.

(* a server and a request *)
Definition ex_factory : server_factory unit := {|
  sf_name := s "x-test";
  sf_process_request_params := fun p _ =>
    match p with [(_, None)] => Ok ([(s "y", Some (s "1"))], tt) | _ => Raise (NegotiationError (s "no")) end |}.
Definition ex_config : server_config unit := {|
  sc_origins := Some [Some (s "http://example.com"); None];
  sc_extensions := Some [ex_factory];
  sc_subprotocols := Some [s "chat"; s "superchat"];
  sc_extra_headers := fun _ _ => Some [(s "X-Extra", s "1")] |}.
Definition ex_headers : pairs := [
  (s "Host", s "example.com"); (s "Connection", s "keep-alive, Upgrade"); (s "Upgrade", s "WebSocket");
  (s "Sec-WebSocket-Key", s "dGhlIHNhbXBsZSBub25jZQ=="); (s "Sec-WebSocket-Version", s "13");
  (s "Origin", s "http://example.com"); (s "Sec-WebSocket-Extensions", s "x-other, x-test; a");
  (s "Sec-WebSocket-Protocol", s "superchat, chat") ].
Definition ex_request : request := {| req_path := s "/"; req_headers := headers_of ex_headers |}.
Definition ex_unit_conn : conn unit := new_conn SERVER CONNECTING None ex_keys.

Lemma ex_polite : polite_server_factories (sc_extensions ex_config).
Proof.
  intros fs f H. apply some_inj in H. subst fs. intros [<-|[]] p acc e. cbn.
  destruct p as [|[a [v|]] [|? ?]]; intros H; try discriminate H; injection H as <-; reflexivity.
Qed.
Example C38_applies :
  polite_server_factories (sc_extensions ex_config) /\ sane_extra ex_config ex_request /\ any_order ex_env /\
  valid_request (sc_origins ex_config) (sc_extensions ex_config) (sc_subprotocols ex_config) ex_headers /\
  exists resp, snd (accept ex_env ex_config ex_request ex_unit_conn) = Ok resp /\ resp_status resp = 101%Z /\
    headers_get_all (resp_headers resp) (s "Sec-WebSocket-Extensions") = [s "x-test; y=1"].
Proof.
  assert (A : exists c' resp, accept ex_env ex_config ex_request ex_unit_conn = (c', Ok resp) /\ resp_status resp = 101%Z /\
    headers_get_all (resp_headers resp) (s "Sec-WebSocket-Extensions") = [s "x-test; y=1"]).
  { eexists _, _. split; [vm_compute; reflexivity|]. vm_compute. auto. }
  destruct A as (c' & resp & A & St & Hx). split; [apply ex_polite|]. split; [split; unfold at_most_once; cbn; lia|].
  split; [intros l; symmetry; apply Permutation_rev|]. split.
  - exact (C38_only_valid_requests_accepted _ _ ex_config ex_request ex_headers _ _ _ eq_refl ex_polite A St).
  - exists resp. rewrite A. auto.
Qed.

(* ---- the whole life of a server ---- *)

Definition server_history {E} (X : ext_ops E) env cfg max_size keys (ks : list server_call) (m : machine E) (rs : list server_ret) : Prop :=
  server_run X env cfg (new_server X max_size keys) ks = (m, rs).
Definition server_delivered (r : server_ret) : list event := match r with SRet r => delivered_by r | _ => [] end.
Definition server_events {E} (rs : list server_ret) (m : machine E) : list event :=
  flat_map server_delivered rs ++ c_events (m_conn m).

Section ServerRuns.
Context {E : Type} (X : ext_ops E) (env : environment) (cfg : server_config E).

Lemma server_run_app ks : forall m ks', server_run X env cfg m (ks ++ ks') =
  (fst (server_run X env cfg (fst (server_run X env cfg m ks)) ks'),
   snd (server_run X env cfg m ks) ++ snd (server_run X env cfg (fst (server_run X env cfg m ks)) ks')).
Proof.
  induction ks as [|k ks IH]; intros m ks'; cbn [app server_run].
  - cbn [fst snd app]. apply surjective_pairing.
  - destruct (server_do X env cfg m k) as [m' r]. rewrite IH. destruct (server_run X env cfg m' ks) as [m2 rs]. reflexivity.
Qed.
Lemma server_run_calls ks : forall m, server_run X env cfg m (map SCall ks) = (fst (do_calls X m ks), map SRet (snd (do_calls X m ks))).
Proof.
  induction ks as [|k ks IH]; intros m; cbn [map server_run do_calls server_do]; [reflexivity|].
  destruct (do_call X m k) as [m' r]. rewrite IH. destruct (do_calls X m' ks) as [m2 rs]. reflexivity.
Qed.
Lemma server_do_live m k : parser_live m -> parser_live (fst (server_do X env cfg m k)).
Proof.
  intros L. destruct k as [k|req|st ph tx hs|r]; cbn [server_do].
  - pose proof (do_call_live X m k L) as L'. destruct (do_call X m k). exact L'.
  - destruct (accept env cfg req (m_conn m)) as [c r]. exact L.
  - exact L.
  - unfold on_conn. destruct (send_response r (m_conn m)) as [c x]. exact L.
Qed.
Lemma server_run_live ks : forall m, parser_live m -> parser_live (fst (server_run X env cfg m ks)).
Proof.
  induction ks as [|k ks IH]; intros m L; cbn [server_run]; [exact L|]. pose proof (server_do_live m k L) as L'.
  destruct (server_do X env cfg m k) as [m' r]. specialize (IH m' L'). destruct (server_run X env cfg m' ks). exact IH.
Qed.

Lemma accept_quiet req c : quiet c (fst (accept env cfg req c)).
Proof.
  unfold accept, process_request. cbn zeta.
  destruct (let! _ := check_upgrade (req_headers req) in _) as [[key origin]|e]; [|apply quiet_refl].
  destruct (process_extensions cfg (req_headers req)) as [[eh ex]|e]; [|split; cbn; auto].
  destruct (process_subprotocol env cfg (req_headers req)) as [sp|e]; split; cbn; auto.
Qed.

(* events: a request, then frames *)
Definition request_then_frames (pe : list event) (c : conn E) : Prop :=
  exists req fs, pe ++ c_events c = EvRequest req :: map EvFrame fs.
Lemma rtf_frames pe c c' : frames_only c c' -> request_then_frames pe c -> request_then_frames pe c'.
Proof.
  intros [[fs H] _] (req & gs & H'). exists req, (gs ++ fs). rewrite H, app_assoc, H', map_app. reflexivity.
Qed.
Definition server_phase := in_phase reads_request (fun _ : conn E => True) request_then_frames.

Lemma server_phase_do pe m k : server_phase pe m ->
  server_phase (pe ++ server_delivered (snd (server_do X env cfg m k))) (fst (server_do X env cfg m k)).
Proof.
  intros I0. destruct k as [k|req|st ph tx hs|r]; cbn [server_do].
  - pose proof (in_phase_call X reads_request (fun _ => True) request_then_frames) as Q.
    specialize (Q (fun _ _ _ _ => I)).
    assert (Q1 : forall c c', True -> c_events c = [] -> reads_request c c' -> request_then_frames [] c').
    { intros c c' _ He (req & ->). exists req, []. cbn. rewrite He. reflexivity. }
    specialize (Q Q1 rtf_frames).
    assert (Q2 : forall pe c, request_then_frames pe c -> request_then_frames (pe ++ c_events c) (set_events c [])).
    { intros pe' c (req & fs & H). exists req, fs. cbn. now rewrite app_nil_r. }
    specialize (Q Q2 pe m k I0). destruct (do_call X m k) as [m' r]. exact Q.
  - pose proof (accept_quiet req (m_conn m)) as Q. destruct (accept env cfg req (m_conn m)) as [c r]. cbn [fst snd server_delivered] in *.
    rewrite app_nil_r. destruct I0 as [(H & -> & He & _)|(H & H1)]; [left|right]; cbn; auto.
    + split; [exact H|]. split; [reflexivity|]. split; [destruct Q; congruence|exact I].
    + split; [exact H|]. eapply rtf_frames; [apply quiet_frames; exact Q|exact H1].
  - cbn [fst snd server_delivered]. now rewrite app_nil_r.
  - assert (Ev : c_events (fst (send_response r (m_conn m))) = c_events (m_conn m)).
    { unfold send_response. destruct (resp_status r =? 101)%Z; destruct (serialize_response r); reflexivity. }
    unfold on_conn. destruct (send_response r (m_conn m)) as [c x]. cbn [fst snd] in *.
    replace (server_delivered (SRet (ret_of x))) with (@nil event) by now destruct x. rewrite app_nil_r.
    destruct I0 as [(H & -> & He & _)|(H & (req & fs & H1))]; [left|right]; cbn.
    + split; [exact H|]. split; [reflexivity|]. split; [congruence|exact I].
    + split; [exact H|]. exists req, fs. cbn. now rewrite Ev.
Qed.
Lemma server_phase_run ks : forall pe m, server_phase pe m ->
  server_phase (pe ++ flat_map server_delivered (snd (server_run X env cfg m ks))) (fst (server_run X env cfg m ks)).
Proof.
  induction ks as [|k ks IH]; intros pe m H; cbn [server_run].
  - cbn [fst snd flat_map]. now rewrite app_nil_r.
  - pose proof (server_phase_do pe m k H) as H1. destruct (server_do X env cfg m k) as [m' r]. cbn [fst snd] in H1.
    specialize (IH _ _ H1). destruct (server_run X env cfg m' ks) as [m2 rs]. cbn [fst snd flat_map] in *. now rewrite app_assoc.
Qed.
Lemma server_phase_new max_size keys : server_phase [] (new_server X max_size keys).
Proof.
  left. unfold new_server, start. rewrite step_parser_eq. cbn. split; [|auto]. exact server_parse_safe2.
Qed.

(* the state *)
Definition not_open (c : conn E) : Prop := c_state c <> OPEN.
Definition unopened := in_phase reads_request not_open (fun _ => not_open).
Lemma quiet_not_open c c' : quiet c c' -> not_open c -> not_open c'.
Proof. intros [_ H] N K. auto. Qed.
Lemma unopened_do pe m k : (forall r, k = SSendResponse r -> resp_status r <> 101%Z) -> unopened pe m ->
  unopened (pe ++ server_delivered (snd (server_do X env cfg m k))) (fst (server_do X env cfg m k)).
Proof.
  intros Hk I0. destruct k as [k|req|st ph tx hs|r]; cbn [server_do].
  - pose proof (in_phase_call X reads_request not_open (fun _ => not_open) quiet_not_open) as Q.
    assert (Q1 : forall c c', not_open c -> c_events c = [] -> reads_request c c' -> not_open c').
    { intros c c' N _ (req & ->). exact N. }
    assert (Q2 : forall (pe : list event) c c', frames_only c c' -> not_open c -> not_open c').
    { intros _ c c' [_ H] N K. auto. }
    specialize (Q Q1 Q2 (fun _ _ H => H) pe m k I0). destruct (do_call X m k) as [m' r]. exact Q.
  - pose proof (accept_quiet req (m_conn m)) as Q. destruct (accept env cfg req (m_conn m)) as [c r]. cbn [fst snd server_delivered] in *.
    rewrite app_nil_r. destruct I0 as [(H & -> & He & H0)|(H & H1)]; [left|right]; cbn; auto.
    + split; [exact H|]. split; [reflexivity|]. split; [destruct Q; congruence|]. eapply quiet_not_open; eassumption.
    + split; [exact H|]. eapply quiet_not_open; eassumption.
  - cbn [fst snd server_delivered]. now rewrite app_nil_r.
  - specialize (Hk r eq_refl). assert (Ev : quiet (m_conn m) (fst (send_response r (m_conn m)))).
    { unfold send_response. destruct (Z.eqb_spec (resp_status r) 101) as [Hs|Hs]; [contradiction|]. destruct (serialize_response r); split; cbn; auto. }
    unfold on_conn. destruct (send_response r (m_conn m)) as [c x]. cbn [fst snd] in *.
    replace (server_delivered (SRet (ret_of x))) with (@nil event) by now destruct x. rewrite app_nil_r.
    destruct I0 as [(H & -> & He & H0)|(H & H1)]; [left|right]; cbn.
    + split; [exact H|]. split; [reflexivity|]. split; [destruct Ev; congruence|]. eapply quiet_not_open; eassumption.
    + split; [exact H|]. eapply quiet_not_open; eassumption.
Qed.
Lemma unopened_run ks : (forall r, In (SSendResponse r) ks -> resp_status r <> 101%Z) -> forall pe m, unopened pe m ->
  exists pe', unopened pe' (fst (server_run X env cfg m ks)).
Proof.
  induction ks as [|k ks IH]; intros Hk pe m H; cbn [server_run]; [eauto|].
  assert (H1 : unopened (pe ++ server_delivered (snd (server_do X env cfg m k))) (fst (server_do X env cfg m k))).
  { apply unopened_do; [|exact H]. intros r ->. apply Hk. now left. }
  destruct (server_do X env cfg m k) as [m' r]. cbn [fst snd] in H1.
  destruct (IH (fun r I => Hk r (or_intror I)) _ _ H1) as [pe' H2]. destruct (server_run X env cfg m' ks) as [m2 rs]. cbn [fst] in *. eauto.
Qed.
Lemma unopened_new max_size keys : unopened [] (new_server X max_size keys).
Proof.
  left. unfold new_server, start. rewrite step_parser_eq. cbn. split; [exact server_parse_safe2|]. split; [reflexivity|]. split; [reflexivity|discriminate].
Qed.
End ServerRuns.

(* Whatever is received and whatever calls are made, a server connection opens only when a
   101 response is sent. *)
Theorem C38_opens_only_on_101 : forall E (X : ext_ops E) env cfg max_size keys ks m rs,
  server_history X env cfg max_size keys ks m rs -> c_state (m_conn m) = OPEN ->
  exists r, In (SSendResponse r) ks /\ resp_status r = 101%Z.
Proof.
  intros E X env cfg max_size keys ks m rs H Ho.
  destruct (Exists_dec (fun k => match k with SSendResponse r => resp_status r = 101%Z | _ => False end) ks) as [D|D].
  { intros [| | |r]; try (right; tauto). destruct (Z.eq_dec (resp_status r) 101); auto. }
  - apply Exists_exists in D as ([| | |r] & Ik & Hr); try contradiction. eauto.
  - exfalso. destruct (unopened_run X env cfg ks) with (pe := @nil event) (m := new_server X max_size keys) as [pe' U].
    + intros r Ik Hr. apply D. apply Exists_exists. eauto.
    + apply unopened_new.
    + unfold server_history in H. rewrite H in U. cbn [fst] in U. destruct U as [(_ & _ & _ & U)|(_ & U)]; now apply U.
Qed.

(* A request that arrives in any number of chunks is delivered; when the response to it is
   sent, the connection is open, between frames: the theorems about the rest of its life
   (Properties/Connection.v and Properties/Closing.v) apply. *)
Theorem C38_open_after_handshake : forall E (X : ext_ops E) env cfg max_size keys w path l datas resp,
  request_message w path l -> concat datas = w ->
  let req := {| req_path := path; req_headers := headers_of l |} in
  snd (accept env cfg req (new_conn SERVER CONNECTING max_size keys)) = Ok resp -> resp_status resp = 101%Z ->
  (exists data, serialize_response resp = Ok data) ->
  exists m rs c0 data,
    server_history X env cfg max_size keys
      (map SCall (map CReceiveData datas) ++ [SCall CEventsReceived; SAccept req; SSendResponse resp; SCall CDataToSend]) m
      (rs ++ [SRet (REvents [EvRequest req]); SResponse (Ok resp); SRet RNone; SRet (RWrites [data])]) /\
    serialize_response resp = Ok data /\
    m = start X (parse_body X) c0 /\ fresh OPEN c0 /\ c_side c0 = SERVER /\
    c0 = set_state (fst (accept env cfg req (new_conn SERVER CONNECTING max_size keys))) OPEN.
Proof.
  intros E X env cfg max_size keys w path l datas resp M Ed req Ha Hs [data Hd].
  set (c := new_conn SERVER CONNECTING max_size keys) in *.
  assert (R : fst (do_calls X (new_server X max_size keys) (map CReceiveData datas)) =
    Machine (set_events c [EvRequest req]) reader_init (PRun (parse_body X)) None).
  { unfold new_server. rewrite start_chunks; [|apply live_server_parse|apply server_starts].
    pose proof (server_request datas w path l [] c M (eq_trans Ed (eq_sym (app_nil_r w))) eq_refl) as Rn.
    rewrite (step_done X _ _ _ _ Rn). reflexivity. }
  pose proof (accept_quiet env cfg req c) as Qa.
  assert (Qw : c_writes (fst (accept env cfg req c)) = [] /\ fresh CONNECTING (fst (accept env cfg req c)) /\ c_side (fst (accept env cfg req c)) = SERVER).
  { unfold accept, process_request. cbn zeta.
    destruct (let! _ := check_upgrade (req_headers req) in _) as [[key origin]|e]; [|now repeat split].
    destruct (process_extensions cfg (req_headers req)) as [[eh ex]|e]; [|now repeat split].
    destruct (process_subprotocol env cfg (req_headers req)) as [sp|e]; now repeat split. }
  assert (Ac : accept env cfg req (set_events c []) = accept env cfg req c) by reflexivity.
  destruct (accept env cfg req c) as [c1 r1] eqn:E1. cbn [fst snd] in *. subst r1.
  eexists _, (map SRet (snd (do_calls X (new_server X max_size keys) (map CReceiveData datas)))), (set_state c1 OPEN), data.
  split; [|split; [exact Hd|]].
  - unfold server_history. rewrite server_run_app, server_run_calls, R. cbn [fst snd].
    cbn [server_run server_do do_call events_received m_conn c_events set_events].
    change (set_events (set_events c [EvRequest req]) []) with (set_events c []). rewrite Ac.
    unfold on_conn, send_response. cbn [m_conn]. rewrite Hs, Hd. cbn [Z.eqb ret_of data_to_send m_conn m_reader m_parser m_exc].
    destruct Qw as (Hw & _). cbn [Pos.eqb c_writes set_state set_writes]. rewrite Hw. cbn [app]. reflexivity.
  - cbn [m_conn m_reader m_parser m_exc]. rewrite start_parse_body. destruct Qw as (Hw & Hf & Hsd).
    destruct Hf as (F1 & F2 & F3 & F4 & F5 & F6 & F7 & F8 & F9).
    split; [|split; [|split; [exact Hsd|reflexivity]]].
    + destruct c1. cbn in *. subst. reflexivity.
    + repeat (split; [cbn; assumption || reflexivity|]). cbn. assumption.
Qed.

(* ---- C39 ---- *)

(* A request without non-ASCII characters that isn't valid gets the specified status; the
   response is complete and the connection isn't opened, even when the response is sent.
   Missing: requests with other characters (see C39_statuses_refuted). *)
Theorem C39_statuses_partial : forall E env (cfg : server_config E) req l c,
  req_headers req = headers_of l -> polite_server_factories (sc_extensions cfg) -> unicode_headers l ->
  ~ valid_request (sc_origins cfg) (sc_extensions cfg) (sc_subprotocols cfg) l ->
  exists c' resp body,
    accept env cfg req c = (c', Ok resp) /\ rejection (sc_origins cfg) l (resp_status resp) /\
    resp_body resp = Some body /\ resp_exception resp <> None /\
    resp_headers resp = headers_of (
      (if (resp_status resp =? 426)%Z then [(s "Upgrade", s "websocket")] else []) ++
      [(s "Date", env_date env); (s "Server", env_user_agent env); (s "Content-Length", str_of_N (lenN body));
       (s "Content-Type", s "text/plain; charset=utf-8"); (s "Connection", s "close")]) /\
    c_state c' = c_state c /\ c_writes c' = c_writes c /\ forall c2 : conn E, c_state (fst (send_response resp c2)) = c_state c2.
Proof.
  intros E env cfg req l c Hh P U V. unfold accept.
  pose proof (process_request_view env cfg req l c Hh P) as W. destruct (process_request env cfg req c) as [c' [[[key eh] sp]|e]].
  1:{ now destruct W as (N & _). }
  destruct W as (_ & Ut & (origin & exts & ->) & Cl). specialize (Ut U).
  assert (T : forall x y, unicode_text x -> unicode_text y -> exists body, utf8_encode (x ++ exn_str e ++ y) = Ok body).
  { intros x y Hx Hy. apply unicode_encodes. apply unicode_app; [exact Hx|]. now apply unicode_app. }
  assert (Fin : forall st phrase text (up : bool) body, utf8_encode text = Ok body -> st <> 101%Z -> (st =? 426)%Z = up -> rejection (sc_origins cfg) l st ->
    reject_exception env e = (let! r := reject env st phrase text (if up then Some (headers_of [(s "Upgrade", s "websocket")]) else None) in Ok (with_exception r e)) ->
    exists c' resp body0, (set_exts (set_origin c origin) exts, reject_exception env e) = (c', Ok resp) /\ rejection (sc_origins cfg) l (resp_status resp) /\
      resp_body resp = Some body0 /\ resp_exception resp <> None /\
      resp_headers resp = headers_of (
        (if (resp_status resp =? 426)%Z then [(s "Upgrade", s "websocket")] else []) ++
        [(s "Date", env_date env); (s "Server", env_user_agent env); (s "Content-Length", str_of_N (lenN body0));
         (s "Content-Type", s "text/plain; charset=utf-8"); (s "Connection", s "close")]) /\
      c_state c' = c_state c /\ c_writes c' = c_writes c /\ forall c2 : conn E, c_state (fst (send_response resp c2)) = c_state c2).
  { intros st phrase text up body Hb N1 Hup R Er. rewrite (reject_of env st phrase text up body Hb) in Er. cbn [rbind] in Er. rewrite Er.
    eexists _, _, body. split; [reflexivity|]. cbn [with_exception resp_status resp_body resp_exception resp_headers].
    split; [exact R|]. split; [reflexivity|]. split; [discriminate|]. split; [now rewrite Hup|]. split; [reflexivity|]. split; [reflexivity|].
    intros c2. unfold send_response. cbn [with_exception resp_status]. destruct (Z.eqb_spec st 101); [contradiction|]. destruct (serialize_response _); reflexivity. }
  destruct Cl as [[He Hb]|[[He Hb]|[[(He & Hu & Ho) [Nb No]]|[-> Nu]]]].
  - destruct e; try discriminate He.
    edestruct (T (s "Failed to open a WebSocket connection: ")
      (s "." ++ nl ++ nl ++ s "You cannot access a WebSocket server directly " ++ s "with a browser. You need a WebSocket client." ++ nl)) as [body Hbody];
      [now apply ascii_name|now apply ascii_name|].
    apply (Fin 426%Z (s "Upgrade Required") _ true body Hbody); [discriminate|reflexivity|left; auto|reflexivity].
  - destruct e; try discriminate He.
    edestruct (T (s "Failed to open a WebSocket connection: ") (s "." ++ nl)) as [body Hbody]; [now apply ascii_name|now apply ascii_name|].
    apply (Fin 403%Z (s "Forbidden") _ false body Hbody); [discriminate|reflexivity|right; left; auto|reflexivity].
  - edestruct (T (s "Failed to open a WebSocket connection: ") (s "." ++ nl)) as [body Hbody]; [now apply ascii_name|now apply ascii_name|].
    apply (Fin 400%Z (s "Bad Request") _ false body Hbody); [discriminate|reflexivity|right; right; auto|].
    unfold reject_exception. rewrite He. destruct e; try discriminate Hu; try discriminate Ho; reflexivity.
  - contradiction.
Qed.

Definition ex_bad_headers : pairs := [
  (s "Connection", s "Upgrade"); (s "Upgrade", s "websocket"); (s "Sec-WebSocket-Key", s "dGhlIHNhbXBsZSBub25jZQ==");
  (s "Sec-WebSocket-Version", s "13"); (s "Origin", s "http://evil.example") ].
Example C39_applies : unicode_headers ex_bad_headers /\
  ~ valid_request (sc_origins ex_config) (sc_extensions ex_config) (sc_subprotocols ex_config) ex_bad_headers /\
  rejection (sc_origins ex_config) ex_bad_headers 403.
Proof.
  assert (U : unicode_headers ex_bad_headers) by (repeat (apply Forall_cons; [now apply ascii_name|]); constructor).
  assert (N : ~ valid_request (sc_origins ex_config) (sc_extensions ex_config) (sc_subprotocols ex_config) ex_bad_headers).
  { intros [_ _ _ _ (o & H1 & H2) _ _]. assert (o = Some (s "http://evil.example")) as ->.
    { eapply has_origin_fun; [exact H1|reflexivity]. } cbn in H2. intuition discriminate. }
  split; [exact U|]. split; [exact N|].
  destruct (C39_statuses_partial _ ex_env ex_config {| req_path := s "/"; req_headers := headers_of ex_bad_headers |} ex_bad_headers ex_unit_conn
    eq_refl ex_polite U N) as (c' & resp & body & A & R & _).
  assert (Q : snd (accept ex_env ex_config {| req_path := s "/"; req_headers := headers_of ex_bad_headers |} ex_unit_conn) = Ok resp) by now rewrite A.
  assert (Qs : match snd (accept ex_env ex_config {| req_path := s "/"; req_headers := headers_of ex_bad_headers |} ex_unit_conn) with
    Ok r => resp_status r = 403%Z | Raise _ => False end) by (vm_compute; reflexivity).
  rewrite Q in Qs. now rewrite Qs in R.
Qed.

(* A request with a byte that isn't ASCII in a header isn't valid, but gets no response,
   because accept() raises UnicodeEncodeError, or a response with status 500. *)
Definition unanswered : pairs := [
  (s "Connection", s "Upgrade"); (s "Upgrade", s "websocket"); (s "Sec-WebSocket-Key", s "dGhlIHNhbXBsZSBub25jZQ==");
  (s "Sec-WebSocket-Version", s "13" ++ [56553]%N) ].
Definition answered_500 : pairs := [
  (s "Connection", s "Upgrade"); (s "Upgrade", s "websocket"); (s "Sec-WebSocket-Key", [56553]%N) ].
Definition wire_of (l : list bytes) : bytes := concat (map (fun x => x ++ map n2b [13; 10]%N) l).
Theorem C39_statuses_refuted :
  let cfg := {| sc_origins := None; sc_extensions := @None (list (server_factory Empty_set)); sc_subprotocols := None; sc_extra_headers := fun _ _ => None |} in
  let c := new_conn SERVER CONNECTING None ex_keys in
  (exists w, receive_all parse_request tt [w] = ODone {| req_path := s "/"; req_headers := headers_of unanswered |} reader_init tt) /\
  ~ valid_request (sc_origins cfg) (sc_extensions cfg) (sc_subprotocols cfg) unanswered /\
  snd (accept ex_env cfg {| req_path := s "/"; req_headers := headers_of unanswered |} c) = Raise UnicodeEncodeError /\
  (exists w, receive_all parse_request tt [w] = ODone {| req_path := s "/"; req_headers := headers_of answered_500 |} reader_init tt) /\
  ~ valid_request (sc_origins cfg) (sc_extensions cfg) (sc_subprotocols cfg) answered_500 /\
  (exists resp, snd (accept ex_env cfg {| req_path := s "/"; req_headers := headers_of answered_500 |} c) = Ok resp /\ resp_status resp = 500%Z).
Proof.
  cbn zeta. split; [|split; [|split; [|split; [|split]]]].
  - exists (wire_of [b "GET / HTTP/1.1"; b "Connection: Upgrade"; b "Upgrade: websocket"; b "Sec-WebSocket-Key: dGhlIHNhbXBsZSBub25jZQ==";
      b "Sec-WebSocket-Version: 13" ++ [n2b 233]; []]). vm_compute. reflexivity.
  - intros [_ _ _ V _ _ _]. vm_compute in V. discriminate.
  - vm_compute. reflexivity.
  - exists (wire_of [b "GET / HTTP/1.1"; b "Connection: Upgrade"; b "Upgrade: websocket"; b "Sec-WebSocket-Key: " ++ [n2b 233]; []]). vm_compute. reflexivity.
  - intros [_ _ (k & V & x & -> & L & _) _ _ _ _]. apply (f_equal (map (@length N))) in V. cbn in V. rewrite app_length, L in V. discriminate.
  - eexists. split; vm_compute; reflexivity.
Qed.

(* ---- C44 ---- *)

Theorem C44_origin_policy : forall E env (cfg : server_config E) req l c c' resp origins,
  req_headers req = headers_of l -> polite_server_factories (sc_extensions cfg) -> sc_origins cfg = Some origins ->
  accept env cfg req c = (c', Ok resp) -> resp_status resp = 101%Z ->
  exists origin, has_origin l origin /\ In origin origins /\ c_origin c' = origin.
Proof.
  intros E env cfg req l c c' resp origins Hh P Ho. unfold accept.
  pose proof (process_request_view env cfg req l c Hh P) as W. destruct (process_request env cfg req c) as [c1 [[[key eh] sp]|e]].
  - intros H _. apply pair_equal_spec in H as [<- _]. destruct W as (_ & _ & _ & origin & exts & Hl & Al & _ & _ & ->).
    exists origin. rewrite Ho in Al. auto.
  - intros H Hs. apply pair_equal_spec in H as [_ H]. exfalso. revert Hs. now apply (reject_exception_status env e).
Qed.
(* A request from an origin that isn't in the list is rejected with 403 if nothing else is
   wrong: C39_statuses_partial with bad_origin. *)
Example C44_applies : exists c' resp, accept ex_env ex_config ex_request ex_unit_conn = (c', Ok resp) /\ resp_status resp = 101%Z /\
  sc_origins ex_config = Some [Some (s "http://example.com"); None] /\ c_origin c' = Some (s "http://example.com").
Proof. eexists _, _. split; [vm_compute; reflexivity|]. vm_compute. auto. Qed.

(* ---- the whole life of a client ---- *)

Definition client_history {E} (X : ext_ops E) env cfg key max_size keys (ks : list client_call) (m : machine E) (rs : list client_ret) : Prop :=
  client_run X env cfg key (new_client X cfg key max_size keys) ks = (m, rs).
Definition client_delivered (r : client_ret) : list event := match r with KRet r => delivered_by r | _ => [] end.
Definition client_events {E} (rs : list client_ret) (m : machine E) : list event :=
  flat_map client_delivered rs ++ c_events (m_conn m).

(* the response is valid for this client *)
Definition accepted_response {E} (cfg : client_config E) (key : str) (r : response) : Prop :=
  exists l exts sp, resp_headers r = headers_of l /\ resp_exception r = None /\
    valid_response (accept_for key) (cc_extensions cfg) (cc_subprotocols cfg) (resp_status r) l exts sp.

Section ClientRuns.
Context {E : Type} (X : ext_ops E) (env : environment) (cfg : client_config E) (key : str).
Hypothesis polite : polite_client_factories (cc_extensions cfg).
Hypothesis ascii_key : Forall (fun c => (c < 128)%N) key.

Lemma client_run_app ks : forall m ks', client_run X env cfg key m (ks ++ ks') =
  (fst (client_run X env cfg key (fst (client_run X env cfg key m ks)) ks'),
   snd (client_run X env cfg key m ks) ++ snd (client_run X env cfg key (fst (client_run X env cfg key m ks)) ks')).
Proof.
  induction ks as [|k ks IH]; intros m ks'; cbn [app client_run].
  - cbn [fst snd app]. apply surjective_pairing.
  - destruct (client_do X env cfg key m k) as [m' r]. rewrite IH. destruct (client_run X env cfg key m' ks) as [m2 rs]. reflexivity.
Qed.
Lemma client_run_calls ks : forall m, client_run X env cfg key m (map KCall ks) = (fst (do_calls X m ks), map KRet (snd (do_calls X m ks))).
Proof.
  induction ks as [|k ks IH]; intros m; cbn [map client_run do_calls client_do]; [reflexivity|].
  destruct (do_call X m k) as [m' r]. rewrite IH. destruct (do_calls X m' ks) as [m2 rs]. reflexivity.
Qed.
Lemma client_do_live m k : parser_live m -> parser_live (fst (client_do X env cfg key m k)).
Proof.
  intros L. destruct k as [k| |r]; cbn [client_do].
  - pose proof (do_call_live X m k L) as L'. destruct (do_call X m k). exact L'.
  - exact L.
  - unfold on_conn. destruct (send_request r (m_conn m)) as [c x]. exact L.
Qed.
Lemma client_run_live ks : forall m, parser_live m -> parser_live (fst (client_run X env cfg key m ks)).
Proof.
  induction ks as [|k ks IH]; intros m L; cbn [client_run]; [exact L|]. pose proof (client_do_live m k L) as L'.
  destruct (client_do X env cfg key m k) as [m' r]. specialize (IH m' L'). destruct (client_run X env cfg key m' ks). exact IH.
Qed.

Lemma handle_view r (c : conn E) : from_wire r ->
  exists c' r', handle_response cfg key r c = (c', Ok tt) /\ c_events c' = c_events c ++ [EvResponse r'] /\
    resp_status r' = resp_status r /\ resp_headers r' = resp_headers r /\
    ((accepted_response cfg key r /\ r' = r /\ c_state c' = OPEN /\
      exists exts sp, c' = append_response (set_state (set_subprotocol (set_exts c exts) sp) OPEN) r /\
        forall l, resp_headers r = headers_of l -> valid_response (accept_for key) (cc_extensions cfg) (cc_subprotocols cfg) (resp_status r) l exts sp) \/
     (~ accepted_response cfg key r /\ resp_exception r' <> None /\ c_state c' = c_state c)).
Proof.
  intros [[l Hl] He]. unfold handle_response.
  pose proof (process_response_view cfg key r l c Hl polite ascii_key) as V.
  destruct (process_response cfg key r c) as [c1 [[]|e]].
  - destruct V as (exts & sp & V & ->). eexists _, r. split; [reflexivity|]. split; [reflexivity|]. split; [reflexivity|]. split; [reflexivity|]. left.
    split; [exists l, exts, sp; auto|]. split; [reflexivity|]. split; [reflexivity|]. exists exts, sp. split; [reflexivity|].
    intros l' Hl'. assert (l' = l) as ->; [|exact V]. rewrite Hl in Hl'.
    pose proof (rep_list _ _ (rep_of l)) as A. pose proof (rep_list _ _ (rep_of l')) as B. congruence.
  - destruct V as (Ih & N & exts & ->). rewrite Ih. eexists _, _. split; [reflexivity|]. split; [reflexivity|]. split; [reflexivity|]. split; [reflexivity|]. right.
    split; [|split; [discriminate|reflexivity]]. intros (l' & ex & sp & Hl' & _ & V). apply (N ex sp). unfold valid_for_client.
    assert (l' = l) as ->; [|exact V]. rewrite Hl in Hl'.
    pose proof (rep_list _ _ (rep_of l)) as A. pose proof (rep_list _ _ (rep_of l')) as B. congruence.
Qed.

(* events: a response, then frames; open only if the response was accepted *)
Definition response_then_frames (pe : list event) (c : conn E) : Prop :=
  exists r fs, pe ++ c_events c = EvResponse r :: map EvFrame fs /\ (c_state c = OPEN -> accepted_response cfg key r).
Lemma rtf2_frames pe c c' : frames_only c c' -> response_then_frames pe c -> response_then_frames pe c'.
Proof.
  intros [[fs H] Ho] (r & gs & H' & Hr). exists r, (gs ++ fs). split; [rewrite H, app_assoc, H', map_app; reflexivity|auto].
Qed.
Definition client_phase := in_phase (reads_response cfg key) (@not_open E) response_then_frames.

Lemma client_phase_do pe m k : client_phase pe m ->
  client_phase (pe ++ client_delivered (snd (client_do X env cfg key m k))) (fst (client_do X env cfg key m k)).
Proof.
  intros I0. destruct k as [k| |r]; cbn [client_do].
  - pose proof (in_phase_call X (reads_response cfg key) not_open response_then_frames quiet_not_open) as Q.
    assert (Q1 : forall c c', not_open c -> c_events c = [] -> reads_response cfg key c c' -> response_then_frames [] c').
    { intros c c' N He (r & W & ->). destruct (handle_view r c W) as (c1 & r' & Hh & Hev & _ & _ & D). rewrite Hh. cbn [fst].
      exists r', []. rewrite He in Hev. split; [exact Hev|]. intros Ho.
      destruct D as [(A & -> & _)|(_ & _ & D)]; [exact A|]. exfalso. apply N. congruence. }
    specialize (Q Q1 rtf2_frames).
    assert (Q2 : forall pe c, response_then_frames pe c -> response_then_frames (pe ++ c_events c) (set_events c [])).
    { intros pe' c (r & fs & H & Hr). exists r, fs. cbn. rewrite app_nil_r. auto. }
    specialize (Q Q2 pe m k I0). destruct (do_call X m k) as [m' r]. exact Q.
  - cbn [fst snd client_delivered]. now rewrite app_nil_r.
  - assert (Ev : quiet (m_conn m) (fst (send_request r (m_conn m)))) by (unfold send_request; destruct (serialize_request r); split; auto).
    unfold on_conn. destruct (send_request r (m_conn m)) as [c x]. cbn [fst snd] in *.
    replace (client_delivered (KRet (ret_of x))) with (@nil event) by now destruct x. rewrite app_nil_r.
    destruct I0 as [(H & -> & He & H0)|(H & H1)]; [left|right]; cbn.
    + split; [exact H|]. split; [reflexivity|]. split; [destruct Ev; congruence|]. eapply quiet_not_open; eassumption.
    + split; [exact H|]. eapply rtf2_frames; [apply quiet_frames; exact Ev|exact H1].
Qed.
Lemma client_phase_run ks : forall pe m, client_phase pe m ->
  client_phase (pe ++ flat_map client_delivered (snd (client_run X env cfg key m ks))) (fst (client_run X env cfg key m ks)).
Proof.
  induction ks as [|k ks IH]; intros pe m H; cbn [client_run].
  - cbn [fst snd flat_map]. now rewrite app_nil_r.
  - pose proof (client_phase_do pe m k H) as H1. destruct (client_do X env cfg key m k) as [m' r]. cbn [fst snd] in H1.
    specialize (IH _ _ H1). destruct (client_run X env cfg key m' ks) as [m2 rs]. cbn [fst snd flat_map] in *. now rewrite app_assoc.
Qed.
Lemma client_phase_new max_size keys : client_phase [] (new_client X cfg key max_size keys).
Proof.
  left. unfold new_client, start. rewrite step_parser_eq. cbn. split; [exact (client_parse_safe2 cfg key)|]. split; [reflexivity|]. split; [reflexivity|discriminate].
Qed.
End ClientRuns.

(* ---- C40 ---- *)

(* Whatever is received and whatever calls are made, a client connection is open only if it
   received a valid response. *)
Theorem C40_opens_only_on_valid_response : forall E (X : ext_ops E) env cfg token max_size keys ks m rs,
  polite_client_factories (cc_extensions cfg) -> length token = 16 ->
  client_history X env cfg (generate_key token) max_size keys ks m rs -> c_state (m_conn m) = OPEN ->
  exists r evs, client_events rs m = EvResponse r :: evs /\ accepted_response cfg (generate_key token) r.
Proof.
  intros E X env cfg token max_size keys ks m rs P L H Ho.
  assert (A := valid_key_ascii _ (generated_key_valid token L)).
  pose proof (client_phase_run X env cfg _ P A ks _ _ (client_phase_new X cfg (generate_key token) max_size keys)) as I0.
  unfold client_history in H. rewrite H in I0. cbn [fst snd app] in I0. destruct I0 as [(_ & _ & _ & I0)|(_ & r & fs & Ev & V)].
  - now exfalso; apply I0.
  - exists r, (map EvFrame fs). auto.
Qed.

(* When a response has arrived, in any number of chunks, it's delivered; the connection is
   open if and only if the response is valid, and then it's between frames and uses the
   extensions and the subprotocol of the response. *)
Theorem C40_opens_iff_valid_response : forall E (X : ext_ops E) env cfg token max_size keys datas resp,
  polite_client_factories (cc_extensions cfg) -> length token = 16 ->
  receive_all parse_response tt datas = ODone resp {| r_buffer := []; r_eof := false |} tt ->
  exists m rs l resp',
    client_history X env cfg (generate_key token) max_size keys (map KCall (map CReceiveData datas ++ [CEventsReceived])) m
      (rs ++ [KRet (REvents [EvResponse resp'])]) /\
    resp_headers resp = headers_of l /\ resp_status resp' = resp_status resp /\ resp_headers resp' = resp_headers resp /\
    (c_state (m_conn m) = OPEN <->
     exists exts sp, valid_response (accept_for (generate_key token)) (cc_extensions cfg) (cc_subprotocols cfg) (resp_status resp) l exts sp) /\
    (c_state (m_conn m) = OPEN <-> resp_exception resp' = None) /\
    (c_state (m_conn m) <> OPEN -> c_state (m_conn m) = CONNECTING) /\
    (c_state (m_conn m) = OPEN ->
     exists exts sp c0,
       valid_response (accept_for (generate_key token)) (cc_extensions cfg) (cc_subprotocols cfg) (resp_status resp) l exts sp /\
       m = start X (parse_body X) c0 /\ fresh OPEN c0 /\ c_side c0 = CLIENT /\ c_exts c0 = exts /\ c_subprotocol c0 = sp).
Proof.
  intros E X env cfg token max_size keys datas resp P L R.
  assert (A := valid_key_ascii _ (generated_key_valid token L)). set (key := generate_key token) in *.
  set (c := set_origin (@new_conn E CLIENT CONNECTING max_size keys) (cc_origin cfg)).
  assert (W : from_wire resp).
  { assert (K := R). rewrite Http11Facts.receive_all_live in K by apply Http11Facts.live_parse_response.
    assert (G : forall (S A : Type) (F : A -> Prop) (g : gen S A) r x a r' x', returns F g -> run g r x = ODone a r' x' -> F a).
    { clear. intros S A F g. induction g as [a0|e|p k IH|n k IH|k IH|k IH|k IH|y k IH|k IH]; intros r x a r' x' Rt H; cbn [run returns] in *; try discriminate.
      - now injection H as <- _ _.
      - destruct (find_lf_from p (r_buffer r)); [eapply IH; eauto|]. destruct (r_eof r); [eapply IH; eauto|discriminate].
      - destruct (n <? 0)%Z; [eapply IH; eauto|]. destruct (lenZ (r_buffer r) <? n)%Z; [|eapply IH; eauto]. destruct (r_eof r); [eapply IH; eauto|discriminate].
      - destruct (r_eof r); [eapply IH; eauto|discriminate].
      - destruct (r_buffer r); [destruct (r_eof r); [eapply IH; eauto|discriminate]|eapply IH; eauto].
      - eapply IH; eauto.
      - eapply IH; eauto. }
    eapply G; [apply response_returns|exact K]. }
  destruct (handle_view cfg key P A resp c W) as (c1 & r' & Hh & Hev & Hst & Hhd & D).
  assert (Rn : fst (do_calls X (new_client X cfg key max_size keys) (map CReceiveData datas)) = Machine c1 reader_init (PRun (parse_body X)) None).
  { unfold new_client. rewrite start_chunks; [|apply live_client_parse|apply client_starts].
    pose proof (client_response cfg key datas resp [] c R eq_refl) as Rn. rewrite Hh in Rn.
    now rewrite (step_done X _ _ _ _ Rn). }
  destruct W as [[l Hl] He]. cbn in Hev.
  exists (Machine (set_events c1 []) reader_init (PRun (parse_body X)) None),
    (map KRet (snd (do_calls X (new_client X cfg key max_size keys) (map CReceiveData datas)))), l, r'.
  split.
  { unfold client_history. rewrite map_app, client_run_app, (client_run_calls X env cfg key (map CReceiveData datas)). cbn [fst snd]. rewrite Rn. cbn [fst snd map client_run client_do do_call events_received m_conn].
    rewrite Hev. reflexivity. }
  split; [exact Hl|]. split; [exact Hst|]. split; [exact Hhd|]. cbn [m_conn set_events c_state].
  destruct D as [(Ac & -> & Ho & exts & sp & -> & V)|(Na & Ne & Hc)].
  - split; [split; [intros _; exists exts, sp; now apply V|intros _; exact Ho]|]. split; [split; [auto|intros _; exact Ho]|]. split; [contradiction|].
    intros _. exists exts, sp, (set_events (append_response (set_state (set_subprotocol (set_exts c exts) sp) OPEN) resp) []).
    split; [now apply V|]. split; [now rewrite start_parse_body|]. now repeat split.
  - rewrite Hc. split; [split; [discriminate|]|].
    + intros (exts & sp & V). exfalso. apply Na. exists l, exts, sp. auto.
    + split; [split; [discriminate|contradiction]|]. split; [reflexivity|discriminate].
Qed.

Definition ex_client_factory : client_factory unit := {|
  cf_name := s "x-test"; cf_request_params := [(s "a", None)];
  cf_process_response_params := fun p _ =>
    match p with [(_, Some _)] => Ok tt | _ => Raise (NegotiationError (s "no")) end |}.
Definition ex_client_config : client_config unit := {|
  cc_wsuri := {| uri_secure := false; uri_host := s "example.com"; uri_port := 80; uri_resource_name := s "/"; uri_user_info := None |};
  cc_origin := Some (s "http://example.com"); cc_extensions := Some [ex_client_factory];
  cc_subprotocols := Some [s "chat"]; cc_extra_headers := None |}.
Definition ex_response : bytes := wire_of [
  b "HTTP/1.1 101 Switching Protocols"; b "Upgrade: websocket"; b "Connection: Upgrade"; b "Sec-WebSocket-Accept: s3pPLMBiTxaQ9kYGzzhZRbK+xOo=";
  b "Sec-WebSocket-Extensions: x-test; y=1"; b "Sec-WebSocket-Protocol: chat"; [] ].
Example C40_applies : polite_client_factories (cc_extensions ex_client_config) /\ length (b "the sample nonce") = 16 /\
  exists resp l, receive_all parse_response tt [firstn 30 ex_response; skipn 30 ex_response] = ODone resp {| r_buffer := []; r_eof := false |} tt /\
  resp_headers resp = headers_of l /\
  valid_response (accept_for (generate_key (b "the sample nonce"))) (cc_extensions ex_client_config) (cc_subprotocols ex_client_config)
    (resp_status resp) l [tt] (Some (s "chat")).
Proof.
  assert (P : polite_client_factories (cc_extensions ex_client_config)).
  { intros fs f H. apply some_inj in H. subst fs. intros [<-|[]] p acc e. cbn.
    destruct p as [|[a [v|]] [|? ?]]; intros H; try discriminate H; injection H as <-; reflexivity. }
  split; [exact P|]. split; [reflexivity|].
  assert (Q : exists resp, receive_all parse_response tt [firstn 30 ex_response; skipn 30 ex_response] = ODone resp {| r_buffer := []; r_eof := false |} tt /\
    snd (process_response ex_client_config (generate_key (b "the sample nonce")) resp (new_conn CLIENT CONNECTING None ex_keys)) = Ok tt /\
    c_exts (fst (process_response ex_client_config (generate_key (b "the sample nonce")) resp (new_conn CLIENT CONNECTING None ex_keys))) = [tt] /\
    c_subprotocol (fst (process_response ex_client_config (generate_key (b "the sample nonce")) resp (new_conn CLIENT CONNECTING None ex_keys))) = Some (s "chat")).
  { eexists. split; [vm_compute; reflexivity|]. split; [vm_compute; reflexivity|]. split; vm_compute; reflexivity. }
  destruct Q as (resp & Q1 & Q2 & Q3 & Q4). exists resp.
  pose proof (C40_opens_iff_valid_response unit {| ext_name := fun _ => s "x-test"; ext_encode := fun e f => (e, Ok f); ext_decode := fun e f _ => (e, Ok f) |} ex_env ex_client_config
    (b "the sample nonce") None ex_keys _ resp P eq_refl Q1) as (m & rs & l & r' & _ & Hl & _). exists l.
  split; [exact Q1|]. split; [exact Hl|].
  pose proof (process_response_view ex_client_config (generate_key (b "the sample nonce")) resp l (new_conn CLIENT CONNECTING None ex_keys) Hl P
    (valid_key_ascii _ (generated_key_valid (b "the sample nonce") eq_refl))) as V.
  destruct (process_response _ _ _ _) as [c1 [[]|e]]; [|discriminate Q2]. destruct V as (exts & sp & V & ->). cbn [fst c_exts c_subprotocol set_subprotocol set_exts] in Q3, Q4.
  subst exts sp. exact V.
Qed.

(* ---- C51 ---- *)

(* Frames are delivered only after the whole handshake request was received...
   Missing: that the handshake succeeded, see C51_no_frame_before_handshake_refuted. *)
Theorem C51_server_frames_after_request_partial : forall E (X : ext_ops E) env cfg max_size keys ks m rs,
  server_history X env cfg max_size keys ks m rs ->
  server_events rs m = [] \/ exists req fs, server_events rs m = EvRequest req :: map EvFrame fs.
Proof.
  intros E X env cfg max_size keys ks m rs H.
  pose proof (server_phase_run X env cfg ks _ _ (server_phase_new X max_size keys)) as I0.
  unfold server_history in H. rewrite H in I0. cbn [fst snd app] in I0. unfold server_events.
  destruct I0 as [(_ & -> & -> & _)|(_ & I0)]; [now left|right; exact I0].
Qed.
(* ...or the whole handshake response. *)
Theorem C51_client_frames_after_response_partial : forall E (X : ext_ops E) env cfg token max_size keys ks m rs,
  polite_client_factories (cc_extensions cfg) -> length token = 16 ->
  client_history X env cfg (generate_key token) max_size keys ks m rs ->
  client_events rs m = [] \/
  exists r fs, client_events rs m = EvResponse r :: map EvFrame fs /\
    (c_state (m_conn m) = OPEN -> accepted_response cfg (generate_key token) r).
Proof.
  intros E X env cfg token max_size keys ks m rs P L H.
  assert (A := valid_key_ascii _ (generated_key_valid token L)).
  pose proof (client_phase_run X env cfg _ P A ks _ _ (client_phase_new X cfg (generate_key token) max_size keys)) as I0.
  unfold client_history in H. rewrite H in I0. cbn [fst snd app] in I0. unfold client_events.
  destruct I0 as [(_ & -> & -> & _)|(_ & I0)]; [now left|right; exact I0].
Qed.

(* A server delivers a frame that follows the request before it has sent any response, and
   a client delivers a frame that follows a response that it has refused. *)
Definition plain_server : server_config Empty_set :=
  {| sc_origins := None; sc_extensions := None; sc_subprotocols := None; sc_extra_headers := fun _ _ => None |}.
Definition plain_client : client_config Empty_set := {|
  cc_wsuri := {| uri_secure := false; uri_host := s "example.com"; uri_port := 80; uri_resource_name := s "/"; uri_user_info := None |};
  cc_origin := None; cc_extensions := None; cc_subprotocols := None; cc_extra_headers := None |}.
Definition early_frame_server : bytes := wire_of [b "GET / HTTP/1.1"; []] ++ bs [129; 129; 0; 0; 0; 0; 97]%N.
Definition early_frame_client : bytes := wire_of [b "HTTP/1.1 400 Bad Request"; b "Content-Length: 0"; []] ++ bs [129; 1; 97]%N.
Theorem C51_no_frame_before_handshake_refuted :
  (exists m rs req f, server_history FrameCodec.no_ext ex_env plain_server None ex_keys [SCall (CReceiveData early_frame_server)] m rs /\
     c_state (m_conn m) = CONNECTING /\ server_events rs m = [EvRequest req; EvFrame f] /\ f_data f = b "a") /\
  (exists m rs r f, client_history FrameCodec.no_ext ex_env plain_client (s "dGhlIHNhbXBsZSBub25jZQ==") None ex_keys [KCall (CReceiveData early_frame_client)] m rs /\
     c_state (m_conn m) = CONNECTING /\ client_events rs m = [EvResponse r; EvFrame f] /\ resp_status r = 400%Z /\ resp_exception r <> None /\ f_data f = b "a").
Proof.
  split.
  - eexists _, _, _, _. split; [apply surjective_pairing|]. split; [vm_compute; reflexivity|]. split; vm_compute; reflexivity.
  - eexists _, _, _, _. split; [apply surjective_pairing|]. split; [vm_compute; reflexivity|]. split; [vm_compute; reflexivity|].
    split; [vm_compute; reflexivity|]. split; [discriminate|vm_compute; reflexivity].
Qed.

(* ---- C07 for servers and clients ---- *)

Theorem C07_server_chunking_irrelevant : forall E (X : ext_ops E) env cfg max_size keys ks m rs ds ds',
  server_history X env cfg max_size keys ks m rs -> ds <> [] -> ds' <> [] -> concat ds = concat ds' ->
  fst (do_calls X m (map CReceiveData ds)) = fst (do_calls X m (map CReceiveData ds')) /\
  first_error (snd (do_calls X m (map CReceiveData ds))) = first_error (snd (do_calls X m (map CReceiveData ds'))).
Proof.
  intros E X env cfg max_size keys ks m rs [|d ds] [|d' ds'] H N N' Ec; try contradiction. cbn [concat] in Ec.
  assert (L : parser_live m).
  { pose proof (server_run_live X env cfg ks _ (start_live X server_parse (new_conn SERVER CONNECTING max_size keys) live_server_parse)) as L.
    unfold server_history, new_server in H. rewrite H in L. exact L. }
  destruct (feed_chunks X ds m d L) as [-> ->]. destruct (feed_chunks X ds' m d' L) as [-> ->]. rewrite Ec. auto.
Qed.
Theorem C07_client_chunking_irrelevant : forall E (X : ext_ops E) env cfg key max_size keys ks m rs ds ds',
  client_history X env cfg key max_size keys ks m rs -> ds <> [] -> ds' <> [] -> concat ds = concat ds' ->
  fst (do_calls X m (map CReceiveData ds)) = fst (do_calls X m (map CReceiveData ds')) /\
  first_error (snd (do_calls X m (map CReceiveData ds))) = first_error (snd (do_calls X m (map CReceiveData ds'))).
Proof.
  intros E X env cfg key max_size keys ks m rs [|d ds] [|d' ds'] H N N' Ec; try contradiction. cbn [concat] in Ec.
  assert (L : parser_live m).
  { pose proof (client_run_live X env cfg key ks _ (start_live X (client_parse cfg key)
      (set_origin (new_conn CLIENT CONNECTING max_size keys) (cc_origin cfg)) (live_client_parse cfg key))) as L.
    unfold client_history, new_client in H. rewrite H in L. exact L. }
  destruct (feed_chunks X ds m d L) as [-> ->]. destruct (feed_chunks X ds' m d' L) as [-> ->]. rewrite Ec. auto.
Qed.
Example C07_handshake_applies : exists m rs, server_history FrameCodec.no_ext ex_env plain_server None ex_keys [SCall (CReceiveData (b "GET "))] m rs /\
  concat [b "/ HTTP/1.1" ++ crlf; crlf] = concat [b "/ HTTP"; b "/1.1" ++ crlf ++ crlf].
Proof. eexists _, _. split; [apply surjective_pairing|reflexivity]. Qed.

Print Assumptions C42_accept_key.
Print Assumptions C42_generated_keys_valid.
Print Assumptions C43_subprotocol_choice.
Print Assumptions C38_valid_request_accepted.
Print Assumptions C38_only_valid_requests_accepted.
Print Assumptions C38_opens_only_on_101.
Print Assumptions C38_open_after_handshake.
Print Assumptions C39_statuses_partial.
Print Assumptions C39_statuses_refuted.
Print Assumptions C44_origin_policy.
Print Assumptions C40_opens_only_on_valid_response.
Print Assumptions C40_opens_iff_valid_response.
Print Assumptions C51_server_frames_after_request_partial.
Print Assumptions C51_client_frames_after_response_partial.
Print Assumptions C51_no_frame_before_handshake_refuted.
Print Assumptions C07_server_chunking_irrelevant.
Print Assumptions C07_client_chunking_irrelevant.
