(* What a client sends and what a server answers, in terms of pairs. *)
From Verif Require Import Base.Prelude Base.PreludeFacts Model.Utils Model.Datastructures Model.Headers Model.Streams Model.Http11 Model.Frames
  Model.Connection Model.Handshake Model.Server Model.Client Spec.Rfc6455 Spec.FrameSpec Spec.Messages Spec.History Spec.Rfc7230 Spec.Multimap Spec.Http1 Spec.Handshake
  Proofs.MultimapFacts Proofs.HeadersFacts Proofs.KeyFacts Proofs.HandshakeFacts Proofs.NegotiationFacts Proofs.AcceptFacts Proofs.HandshakeRun Properties.HeaderGrammar.

Lemma headers_of_inj l l' : headers_of l = headers_of l' -> l = l'.
Proof.
  intros H. destruct (rep_of l) as [L _]. destruct (rep_of l') as [L' _]. congruence.
Qed.
Lemma with_defaults_values ds : forall l k, (forall kv, In kv ds -> same_name (fst kv) k = false) -> values (with_defaults l ds) k = values l k.
Proof.
  induction ds as [|[n v] ds IH]; intros l k H; [reflexivity|]. cbn [with_defaults]. rewrite IH; [|intros kv I; apply H; now right].
  destruct (values l n); [|reflexivity]. rewrite values_app. unfold values at 2. cbn [filter]. rewrite (H (n, v) (or_introl eq_refl)). apply app_nil_r.
Qed.
Lemma optional_values name k o : values (optional name o) k = if same_name name k then match o with Some v => [v] | None => [] end else [].
Proof. destruct o; cbn [optional]; unfold values; cbn [filter fst]; destruct (same_name name k); reflexivity. Qed.

Lemma values_cons n v l k : values ((n, v) :: l) k = (if same_name n k then [v] else []) ++ values l k.
Proof. unfold values. cbn [filter fst]. destruct (same_name n k); reflexivity. Qed.

Section Agreement.
Context {E : Type}.

Definition request_pairs (env : environment) (cfg : client_config E) (key : str) (auth : option str) : pairs :=
  with_defaults
    ([(s "Host", build_host env (uri_host (cc_wsuri cfg)) (uri_port (cc_wsuri cfg)) (uri_secure (cc_wsuri cfg)))]
     ++ optional (s "Authorization") auth ++ optional (s "Origin") (cc_origin cfg)
     ++ [(s "Upgrade", s "websocket"); (s "Connection", s "Upgrade"); (s "Sec-WebSocket-Key", key); (s "Sec-WebSocket-Version", s "13")]
     ++ optional (s "Sec-WebSocket-Extensions") (option_map (fun l => build_extension (map (fun f => (cf_name f, cf_request_params f)) l)) (cc_extensions cfg))
     ++ optional (s "Sec-WebSocket-Protocol") (option_map build_subprotocol (cc_subprotocols cfg))
     ++ match cc_extra_headers cfg with Some l => l | None => [] end)
    [(s "User-Agent", env_user_agent env)].
Lemma connect_of env (cfg : client_config E) key req :
  at_most_once (match cc_extra_headers cfg with Some l => l | None => [] end) (s "User-Agent") ->
  connect env cfg key = Ok req ->
  exists auth, req = {| req_path := uri_resource_name (cc_wsuri cfg); req_headers := headers_of (request_pairs env cfg key auth) |}.
Proof.
  intros U. unfold connect. change headers_empty with (headers_of []). rewrite setitem_of. cbn [app].
  set (h0 := [(s "Host", _)]).
  assert (A : match (match uri_user_info (cc_wsuri cfg) with
      | Some (username, password) => let! v := build_authorization_basic username password in Ok (headers_setitem (headers_of h0) (s "Authorization") v)
      | None => Ok (headers_of h0) end) with Ok h => exists auth, h = headers_of (h0 ++ optional (s "Authorization") auth) | Raise _ => True end).
  { destruct (uri_user_info (cc_wsuri cfg)) as [[u p]|].
    - destruct (build_authorization_basic u p) as [v|]; cbn [rbind]; [|exact Logic.I]. exists (Some v). now rewrite setitem_of.
    - exists None. cbn [optional]. now rewrite app_nil_r. }
  destruct (match uri_user_info (cc_wsuri cfg) with Some _ => _ | None => _ end) as [h|]; cbn [rbind]; [|discriminate].
  destruct A as [auth ->]. unfold set_opt. rewrite set_opt_of, !setitem_of, !set_opt_of.
  rewrite <- !app_assoc. cbn [app].
  set (l1 := h0 ++ _). 
  assert (Ex : match cc_extra_headers cfg with Some l => headers_update (headers_of l1) l | None => headers_of l1 end =
    headers_of (l1 ++ match cc_extra_headers cfg with Some l => l | None => [] end)).
  { destruct (cc_extra_headers cfg); [apply update_of|now rewrite app_nil_r]. }
  rewrite Ex. rewrite set_defaults_of.
  - cbn [rbind]. intros H. apply ok_inj in H. subst req. exists auth. f_equal. f_equal. unfold request_pairs. f_equal. unfold l1, h0. rewrite <- !app_assoc. cbn [app]. rewrite <- !app_assoc. reflexivity.
  - repeat constructor. intros [].
  - intros kv [<-|[]]. cbn [fst]. unfold at_most_once. unfold l1, h0.
    rewrite !values_app, !values_cons, !values_app, !optional_values. cbn - [values]. exact U.
Qed.

(* ---- values ---- *)

Definition no_handshake (extra : pairs) : Prop :=
  forall name, In name [s "Origin"; s "Upgrade"; s "Connection"; s "Sec-WebSocket-Key"; s "Sec-WebSocket-Version";
    s "Sec-WebSocket-Accept"; s "Sec-WebSocket-Extensions"; s "Sec-WebSocket-Protocol"; s "Transfer-Encoding"] -> values extra name = [].

Lemma request_values env (cfg : client_config E) key auth :
  no_handshake (match cc_extra_headers cfg with Some l => l | None => [] end) ->
  let l := request_pairs env cfg key auth in
  values l (s "Upgrade") = [s "websocket"] /\ values l (s "Connection") = [s "Upgrade"] /\ values l (s "Sec-WebSocket-Key") = [key] /\
  values l (s "Sec-WebSocket-Version") = [s "13"] /\ has_origin l (cc_origin cfg) /\
  values l (s "Sec-WebSocket-Extensions") =
    match cc_extensions cfg with Some l => [build_extension (map (fun f => (cf_name f, cf_request_params f)) l)] | None => [] end /\
  values l (s "Sec-WebSocket-Protocol") = match cc_subprotocols cfg with Some ps => [build_subprotocol ps] | None => [] end.
Proof.
  intros N. cbn zeta. unfold request_pairs, has_origin.
  assert (W : forall l k, same_name (s "User-Agent") k = false -> values (with_defaults l [(s "User-Agent", env_user_agent env)]) k = values l k).
  { intros l k H. apply with_defaults_values. intros kv [<-|[]]. exact H. }
  repeat split; rewrite W by reflexivity; rewrite !values_app, !optional_values; cbn - [values headers_of]; rewrite N by (cbn; auto 12);
    try (destruct (cc_origin cfg)); try (destruct (cc_extensions cfg)); try (destruct (cc_subprotocols cfg)); reflexivity.
Qed.

Lemma response_values env key eh sp extra : no_handshake extra ->
  let l := with_defaults
      ([(s "Upgrade", s "websocket"); (s "Connection", s "Upgrade"); (s "Sec-WebSocket-Accept", accept_for key)]
       ++ optional (s "Sec-WebSocket-Extensions") eh ++ optional (s "Sec-WebSocket-Protocol") sp ++ extra) (standard env) in
  values l (s "Upgrade") = [s "websocket"] /\ values l (s "Connection") = [s "Upgrade"] /\ values l (s "Sec-WebSocket-Accept") = [accept_for key] /\
  values l (s "Sec-WebSocket-Extensions") = match eh with Some x => [x] | None => [] end /\
  values l (s "Sec-WebSocket-Protocol") = match sp with Some x => [x] | None => [] end /\
  values l (s "Transfer-Encoding") = [].
Proof.
  intros N. cbn zeta.
  assert (W : forall l k, same_name (s "Date") k = false -> same_name (s "Server") k = false -> values (with_defaults l (standard env)) k = values l k).
  { intros l k H H'. apply with_defaults_values. intros kv [<-|[<-|[]]]; assumption. }
  repeat split; rewrite W by reflexivity; rewrite !values_app, !optional_values; cbn - [values headers_of accept_for]; rewrite N by (cbn; auto 12);
    destruct eh, sp; reflexivity.
Qed.

Lemma upgrade_ok l : values l (s "Upgrade") = [s "websocket"] -> values l (s "Connection") = [s "Upgrade"] -> check_upgrade (headers_of l) = Ok tt.
Proof.
  intros H1 H2. unfold check_upgrade. rewrite !(rep_get_all _ _ _ (rep_of l)), H1, H2. vm_compute. reflexivity.
Qed.
Lemma key_ok l token : length token = 16%nat -> values l (s "Sec-WebSocket-Key") = [generate_key token] -> request_key (headers_of l) = Ok (generate_key token).
Proof.
  intros L H. pose proof (request_key_view l) as V. destruct (request_key (headers_of l)) as [k|e].
  - destruct V as [V _]. rewrite H in V. now injection V as ->.
  - exfalso. destruct V as [V _]. apply V. exists (generate_key token). split; [exact H|]. now apply generated_key_valid.
Qed.
Lemma version_ok l : values l (s "Sec-WebSocket-Version") = [s "13"] -> request_version (headers_of l) = Ok tt.
Proof.
  intros H. pose proof (request_version_view l) as V. destruct (request_version (headers_of l)) as [[]|e]; [reflexivity|].
  destruct V as [V _]. now exfalso.
Qed.
Lemma origin_ok (cfg : server_config E) l o : has_origin l o -> allowed (sc_origins cfg) o -> process_origin cfg (headers_of l) = Ok o.
Proof.
  intros H A. pose proof (process_origin_view cfg l) as V. destruct (process_origin cfg (headers_of l)) as [o'|e].
  - destruct V as [V _]. now rewrite (has_origin_fun l o o' H V).
  - exfalso. destruct V as [[(_ & o' & H1 & H2)|(_ & N)] _].
    + rewrite (has_origin_fun l o o' H H1) in A. auto.
    + now apply (N o).
Qed.
End Agreement.
