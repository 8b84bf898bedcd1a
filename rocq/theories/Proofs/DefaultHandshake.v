(* The request and the response of a handshake with the default arguments can be written. *)
From Verif Require Import Base.Prelude Base.PreludeFacts Base.PyInt Base.Utf8 Base.Utf8Facts Base.Base64 Base.Base64Facts Base.Sha1 Base.DecimalFacts
  Model.Utils Model.Datastructures Model.Headers Model.Http11 Model.Handshake Model.Server Model.Client Model.Uri Model.PermessageDeflate Model.LegacyHandshake
  Spec.Rfc7230 Spec.Multimap Spec.Http1 Spec.Handshake Spec.Deflate Spec.Requestable
  Proofs.MultimapFacts Proofs.HeadersFacts Proofs.KeyFacts Proofs.HandshakeRun Proofs.AcceptFacts Proofs.AgreementFacts Proofs.DeflateFacts Properties.Handshake Properties.Agreement.
Local Open Scope N_scope.

Ltac tok := apply token_class; split; [discriminate|repeat constructor].
Ltac vis := repeat (apply Forall_cons; [unfold visible; vm_compute; split; discriminate|]); constructor.
Lemma visible_text l : Forall visible l -> Forall text_char l.
Proof. intros F. eapply Forall_impl; [|exact F]. unfold visible, text_char. intros c H. lia. Qed.
Lemma header_valid k v : token k -> Forall visible v -> (length k + length v + 4 <= 4110)%nat -> valid_header (k, v).
Proof.
  intros T F L. split; [exact T|]. cbn [fst snd]. split; [now apply visible_text|]. split; [|split; [|exact L]].
  - intros c r ->. apply Forall_inv in F. unfold visible in F. lia.
  - intros c r ->. apply Forall_app in F as [_ F]. apply Forall_inv in F. unfold visible in F. lia.
Qed.
(* two words separated by a space *)
Lemma header_words k x y : token k -> x <> [] -> y <> [] -> Forall visible x -> Forall visible y ->
  (length k + length (x ++ 32%N :: y) + 4 <= 4110)%nat -> valid_header (k, x ++ 32 :: y).
Proof.
  intros T Nx Ny Fx Fy L. split; [exact T|]. cbn [fst snd]. split.
  { apply Forall_app. split; [now apply visible_text|]. constructor; [right; lia|now apply visible_text]. }
  split; [|split; [|exact L]].
  - intros c r H. destruct x as [|a x]; [contradiction|]. cbn in H. injection H as -> _. apply Forall_inv in Fx. unfold visible in Fx. lia.
  - intros c r H. destruct (exists_last Ny) as (y' & a & ->). replace (x ++ 32 :: y' ++ [a]) with ((x ++ 32 :: y') ++ [a]) in H by now rewrite <- app_assoc.
    apply app_inj_tail in H as [_ ->]. apply Forall_app in Fy as [_ Fy]. apply Forall_inv in Fy. unfold visible in Fy. lia.
Qed.

(* base64 *)
Lemma b64encode_visible l : Forall visible (map b2n (b64encode l)).
Proof.
  assert (A : forall v, v < 64 -> visible (b2n (b64_char v))).
  { intros v H. unfold visible, b64_char. destruct (v <? 26) eqn:C1; [|destruct (v <? 52) eqn:C2; [|destruct (v <? 62) eqn:C3; [|destruct (v =? 62)]]];
      rewrite ?N.ltb_lt, ?N.ltb_ge in *; rewrite ?b2n_n2b; try (rewrite N.mod_small by lia); lia. }
  assert (P : visible (b2n b64_pad)) by (unfold visible; vm_compute; split; discriminate).
  apply Forall_map. induction l as [|x|x y|x y z r IH] using list_ind3; cbn [b64encode].
  - constructor.
  - pose proof (b2n_lt x). repeat (apply Forall_cons; [first [apply A; lia|exact P]|]). constructor.
  - pose proof (b2n_lt x). pose proof (b2n_lt y). repeat (apply Forall_cons; [first [apply A; lia|exact P]|]). constructor.
  - pose proof (b2n_lt x). pose proof (b2n_lt y). pose proof (b2n_lt z). repeat (apply Forall_cons; [first [apply A; lia|exact P]|]). exact IH.
Qed.
Lemma b64encode_length l : (length (b64encode l) <= length l + length l / 3 + 4)%nat.
Proof.
  assert (H : (3 * length (b64encode l) <= 4 * length l + 8)%nat).
  { induction l as [|x|x y|x y z r IH] using list_ind3; cbn [b64encode length]; lia. }
  pose proof (Nat.div_mod_eq (length l) 3). pose proof (Nat.mod_upper_bound (length l) 3). lia.
Qed.
Lemma sha1_length l : length (sha1 l) = 20%nat.
Proof. unfold sha1. destruct (blocks _ _ _) as [[[[a b] c] d] e]. rewrite !app_length, !be_bytes_length. reflexivity. Qed.

(* Host *)
Lemma host_valid env u : requestable u -> valid_header (s "Host", build_host env (uri_host u) (uri_port u) (uri_secure u)).
Proof.
  intros R. destruct (rq_host u R) as [F L]. pose proof (rq_port u R) as P.
  assert (D : Forall visible (str_of_Z (uri_port u)) /\ (length (str_of_Z (uri_port u)) <= 5)%nat).
  { assert (E : str_of_Z (uri_port u) = str_of_N (Z.to_N (uri_port u))) by (destruct (uri_port u); [reflexivity|reflexivity|lia]). rewrite E. split.
    - eapply Forall_impl; [|apply str_of_N_digits]. unfold visible. intros c H. lia.
    - apply str_of_N_length; lia. }
  destruct D as [D Dl]. unfold build_host.
  assert (V : forall l, Forall visible l -> (length l <= 4002)%nat -> valid_header (s "Host", if (uri_port u =? (if uri_secure u then 443 else 80))%Z then l else l ++ s ":" ++ str_of_Z (uri_port u))).
  { intros l Fl Ll. destruct (_ =? _)%Z.
    - apply header_valid; [tok|exact Fl|cbn [length s]; cbn; lia].
    - apply header_valid; [tok| |].
      + apply Forall_app. split; [exact Fl|]. apply Forall_app. split; [|exact D]. repeat constructor; vm_compute; discriminate.
      + rewrite !app_length. cbn. lia. }
  apply V; destruct (env_is_ipv6 env (uri_host u)); auto; try lia.
  - apply Forall_app. split; [repeat constructor; vm_compute; discriminate|]. apply Forall_app. split; [exact F|repeat constructor; vm_compute; discriminate].
  - rewrite !app_length. cbn. lia.
Qed.

Section Default.
Context {zl : zlib}.

Definition default_pairs env (u : ws_uri) (key : str) (auth : option str) : pairs :=
  [(s "Host", build_host env (uri_host u) (uri_port u) (uri_secure u))] ++ optional (s "Authorization") auth ++
  [(s "Upgrade", s "websocket"); (s "Connection", s "Upgrade"); (s "Sec-WebSocket-Key", key); (s "Sec-WebSocket-Version", s "13");
   (s "Sec-WebSocket-Extensions", s "permessage-deflate; client_max_window_bits"); (s "User-Agent", env_user_agent env)].
Lemma fixed_valid k v : token k -> Forall text_char v -> (match v with c :: _ => visible c | [] => True end) ->
  (match rev v with c :: _ => visible c | [] => True end) -> (length k + length v <= 4106)%nat -> valid_header (k, v).
Proof.
  intros T F H1 H2 L. split; [exact T|]. cbn [fst snd]. split; [exact F|]. split; [|split; [|lia]].
  - intros c r ->. unfold visible in H1. lia.
  - intros c r ->. rewrite rev_app_distr in H2. cbn in H2. unfold visible in H2. lia.
Qed.
Ltac fixed := apply fixed_valid; [tok|repeat (apply Forall_cons; [right; vm_compute; split; discriminate|]); constructor|vm_compute; split; discriminate|vm_compute; split; discriminate|cbn; lia].

(* The request of a client with the default arguments *)
Lemma default_request env (cfg : client_config (pmd zl)) token :
  cc_origin cfg = None -> cc_extensions cfg = Some [client_pmd (fun _ => pmd_name) id (default_client_config zl)] ->
  cc_subprotocols cfg = None -> cc_extra_headers cfg = None ->
  requestable (cc_wsuri cfg) -> presentable env -> length token = 16%nat ->
  exists auth, let l := default_pairs env (cc_wsuri cfg) (generate_key token) auth in
    connect env cfg (generate_key token) = Ok {| req_path := uri_resource_name (cc_wsuri cfg); req_headers := headers_of l |} /\
    Forall valid_header l /\ (length l <= 256)%nat.
Proof.
  intros H1 H2 H3 H4 R (P & _) Lt.
  assert (A : exists auth, match uri_user_info (cc_wsuri cfg) with
      | Some (username, password) => exists v, build_authorization_basic username password = Ok v /\ auth = Some v
      | None => auth = None end /\ Forall valid_header (optional (s "Authorization") auth)).
  { destruct (uri_user_info (cc_wsuri cfg)) as [[u p]|] eqn:Eu; [|exists None; split; [reflexivity|constructor]].
    destruct (rq_credentials _ R u p Eu) as (Nc & data & Ed & Ld). exists (Some (s "Basic " ++ map b2n (b64encode data))). split.
    - eexists. split; [|reflexivity]. unfold build_authorization_basic.
      destruct (existsb (N.eqb 58) u) eqn:Ex; [|now rewrite Ed].
      apply existsb_exists in Ex as (c & I & Hc). apply N.eqb_eq in Hc. now subst c.
    - constructor; [|constructor]. change (s "Basic " ++ map b2n (b64encode data)) with (s "Basic" ++ 32 :: map b2n (b64encode data)).
      apply header_words; [tok|discriminate| |vis|apply b64encode_visible|].
      + destruct data as [|x [|y [|z r]]]; try discriminate. apply utf8_decode_encode in Ed. apply ok_inj in Ed. destruct u; discriminate Ed.
      + rewrite app_length. cbn [length]. rewrite map_length. pose proof (b64encode_length data). pose proof (Nat.div_le_upper_bound (length data) 3 1000). cbn. lia. }
  destruct A as (auth & A & Va). exists auth. cbn zeta. split; [|split].
  - unfold connect. change headers_empty with (headers_of []). rewrite setitem_of. cbn [app].
    rewrite H1, H2, H3, H4. cbn [option_map set_opt map].
    assert (Q : (match uri_user_info (cc_wsuri cfg) with
      | Some (username, password) => let! v := build_authorization_basic username password in
          Ok (headers_setitem (headers_of [(s "Host", build_host env (uri_host (cc_wsuri cfg)) (uri_port (cc_wsuri cfg)) (uri_secure (cc_wsuri cfg)))]) (s "Authorization") v)
      | None => Ok (headers_of [(s "Host", build_host env (uri_host (cc_wsuri cfg)) (uri_port (cc_wsuri cfg)) (uri_secure (cc_wsuri cfg)))]) end) =
      Ok (headers_of ([(s "Host", build_host env (uri_host (cc_wsuri cfg)) (uri_port (cc_wsuri cfg)) (uri_secure (cc_wsuri cfg)))] ++ optional (s "Authorization") auth))).
    { destruct (uri_user_info (cc_wsuri cfg)) as [[u p]|]; [destruct A as (v & -> & ->)|subst auth]; cbn [rbind optional app]; [now rewrite setitem_of|reflexivity]. }
    rewrite Q. cbn [rbind]. rewrite !setitem_of. rewrite set_defaults_of; [|repeat constructor; intros []|].
    + cbn [rbind]. do 3 f_equal. unfold default_pairs. cbn [with_defaults].
      rewrite <- !app_assoc. cbn [app]. destruct auth; reflexivity.
    + intros kv [<-|[]]. unfold at_most_once. destruct auth; cbn; lia.
  - unfold default_pairs. apply Forall_app. split; [constructor; [now apply host_valid|constructor]|]. apply Forall_app. split; [exact Va|].
    repeat (apply Forall_cons; [first [fixed|exact P|idtac]|]); [|constructor].
    apply header_valid; [tok|apply b64encode_visible|]. unfold generate_key. rewrite map_length. pose proof (b64encode_length token) as L. rewrite Lt in L. cbn in L |- *. lia.
  - unfold default_pairs. rewrite !app_length. destruct auth; cbn; lia.
Qed.

(* The response of a server with the default arguments *)
Lemma default_response senv env (scfg : server_config (pmd zl)) u token auth path h p :
  sc_extensions scfg = Some [server_pmd (fun _ => pmd_name) id (default_server_config zl)] -> sc_subprotocols scfg = None ->
  sc_extra_headers scfg = (fun _ _ => None) -> presentable senv -> length token = 16%nat ->
  legacy_accept senv scfg {| req_path := path; req_headers := headers_of (default_pairs env u (generate_key token) auth) |} = Ok (h, p) ->
  sendable h.
Proof.
  intros H1 H2 H3 (_ & Pd & Ps) Lt. unfold legacy_accept. cbn [req_headers].
  set (l := default_pairs env u (generate_key token) auth).
  assert (V : values l (s "Sec-WebSocket-Key") = [generate_key token] /\ values l (s "Sec-WebSocket-Extensions") = [s "permessage-deflate; client_max_window_bits"]).
  { unfold l, default_pairs. split; destruct auth; reflexivity. }
  destruct V as [V1 V2]. unfold check_request. destruct (legacy_check_upgrade _ _); cbn [rbind]; [|discriminate].
  rewrite (key_ok l token Lt V1). cbn [rbind]. destruct (request_version _); cbn [rbind]; [|discriminate].
  destruct (process_origin _ _) as [o|]; cbn [rbind]; [|discriminate].
  assert (PE : match process_extensions scfg (headers_of l) with Ok (eh, _) => eh = Some (s "permessage-deflate") \/ eh = None | Raise _ => True end).
  { unfold process_extensions. rewrite H1, (rep_get_all _ _ _ (rep_of l)), V2.
    change (parse_all parse_extension [s "permessage-deflate; client_max_window_bits"]) with (Ok [(s "permessage-deflate", [(s "client_max_window_bits", @None str)])]).
    cbn [rbind match_extensions match_factory sf_name server_pmd].
    change (negb (str_eqb pmd_name (s "permessage-deflate"))) with false. cbn iota. cbn [sf_process_request_params server_pmd].
    rewrite process_request_params_eq. cbn [is_duplicate existsb].
    change (extract_parameters [(s "client_max_window_bits", None)] true) with (Ok (false, false, @None Z, Some BTrue)). cbn [rbind].
    change (server_answer (default_server_config zl) (false, false, None, Some BTrue)) with (Ok (false, false, @None Z, @None bits)). cbn [rbind].
    destruct (server_init _ _) as [x|e]; cbn [rbind]; [now left|]. destruct (is_negotiation_error e); cbn; [now right|exact Logic.I]. }
  destruct (process_extensions scfg (headers_of l)) as [[eh x]|]; cbn [rbind]; [|discriminate].
  assert (Sp : process_subprotocol senv scfg (headers_of l) = Ok None) by (unfold process_subprotocol; rewrite H2; now destruct (headers_get_all _ _)).
  rewrite Sp. cbn [rbind].
  rewrite (accept_response_of senv scfg _ (generate_key token) eh None []); [|now apply valid_key_ascii, generated_key_valid|now rewrite H3|unfold at_most_once; cbn; lia|unfold at_most_once; cbn; lia].
  cbn [rbind resp_headers]. intros H. apply ok_inj, pair_equal_spec in H as [<- _].
  set (l' := with_defaults _ _).
  assert (El : l' = [(s "Upgrade", s "websocket"); (s "Connection", s "Upgrade"); (s "Sec-WebSocket-Accept", accept_for (generate_key token))]
    ++ optional (s "Sec-WebSocket-Extensions") eh ++ [(s "Date", env_date senv); (s "Server", env_user_agent senv)]) by (destruct eh; reflexivity).
  exists l'. split; [reflexivity|]. rewrite El. split; [|destruct eh; cbn; lia].
  apply Forall_app. split; [|apply Forall_app; split].
  - repeat (apply Forall_cons; [first [fixed|idtac]|]); [|constructor].
    apply header_valid; [tok|apply b64encode_visible|]. unfold accept_for. rewrite map_length.
    set (d := sha1 _). pose proof (b64encode_length d) as L. assert (Ld : length d = 20%nat) by apply sha1_length. rewrite Ld in L. cbn in L |- *. lia.
  - destruct PE as [-> | ->]; [|constructor]. constructor; [fixed|constructor].
  - constructor; [exact Pd|]. constructor; [exact Ps|constructor].
Qed.
End Default.
