(* The responses of a server. *)
From Verif Require Import Base.Prelude Base.PreludeFacts Base.Utf8 Base.Utf8Facts Model.Utils Model.Datastructures
  Model.Headers Model.Http11 Model.Frames Model.Connection Model.Handshake Model.Server
  Spec.Rfc7230 Spec.Multimap Spec.Handshake
  Proofs.HeadersFacts Proofs.MultimapFacts Proofs.KeyFacts Proofs.HandshakeFacts Proofs.NegotiationFacts Proofs.HandshakeRun.

Lemma values_app l l' k : values (l ++ l') k = values l k ++ values l' k.
Proof. unfold values. now rewrite filter_app, map_app. Qed.

Definition distinct_names (defaults : pairs) : Prop := NoDup (map (fun kv => lower (fst kv)) defaults).

Lemma set_defaults_of defaults : distinct_names defaults -> forall l, (forall kv, In kv defaults -> at_most_once l (fst kv)) ->
  set_defaults (headers_of l) defaults = Ok (headers_of (with_defaults l defaults)).
Proof.
  induction defaults as [|[k v] r IH]; intros N l A; [reflexivity|]. cbn [set_defaults with_defaults].
  unfold headers_setdefault. rewrite (rep_getitem _ _ _ (rep_of l)). apply NoDup_cons_iff in N as [Nk N].
  assert (Ak := A (k, v) (or_introl eq_refl)). unfold at_most_once in Ak. cbn [fst] in Ak.
  destruct (values l k) as [|v0 [|v1 vs]] eqn:Ev; cbn [rbind]; [| |cbn in Ak; lia].
  - rewrite setitem_of. apply IH; [exact N|]. intros [k' v'] I. unfold at_most_once. rewrite values_app, app_length. cbn [fst].
    assert (Z : values [(k, v)] k' = []).
    { unfold values. cbn [filter fst]. destruct (same_name k k') eqn:Sn; [|reflexivity]. unfold same_name in Sn. apply str_eqb_eq in Sn.
      exfalso. apply Nk. cbn [fst]. rewrite Sn. apply (in_map (fun kv : str * str => lower (fst kv)) _ _ I). }
    rewrite Z. cbn. specialize (A (k', v') (or_intror I)). unfold at_most_once in A. cbn [fst] in A. lia.
  - apply IH; [exact N|]. intros kv I. apply A. now right.
Qed.

Definition standard (env : environment) : pairs := [(s "Date", env_date env); (s "Server", env_user_agent env)].
Lemma standard_distinct env : distinct_names (standard env).
Proof. repeat constructor; cbn; intuition discriminate. Qed.

Lemma set_opt_of l name o : match o with Some v => headers_setitem (headers_of l) name v | None => headers_of l end =
  headers_of (l ++ optional name o).
Proof. destruct o; cbn [optional]; [apply setitem_of|now rewrite app_nil_r]. Qed.

Lemma accept_response_of {E} env (cfg : server_config E) req key eh sp extra :
  Forall (fun c => (c < 128)%N) key ->
  extra = match sc_extra_headers cfg (req_path req) (req_headers req) with Some l => l | None => [] end ->
  at_most_once extra (s "Date") -> at_most_once extra (s "Server") ->
  accept_response env cfg req key eh sp = Ok {|
    resp_status := 101; resp_reason := s "Switching Protocols";
    resp_headers := headers_of (with_defaults
      ([(s "Upgrade", s "websocket"); (s "Connection", s "Upgrade"); (s "Sec-WebSocket-Accept", accept_for key)]
       ++ optional (s "Sec-WebSocket-Extensions") eh ++ optional (s "Sec-WebSocket-Protocol") sp ++ extra) (standard env));
    resp_body := None; resp_exception := None |}.
Proof.
  intros A -> D S. unfold accept_response. rewrite (accept_key_for key A). cbn [rbind].
  change headers_empty with (headers_of []). rewrite !setitem_of, !set_opt_of. cbn [app].
  set (l0 := [(s "Upgrade", s "websocket"); (s "Connection", s "Upgrade"); (s "Sec-WebSocket-Accept", accept_for key)]).
  assert (U : match sc_extra_headers cfg (req_path req) (req_headers req) with
     | Some l => headers_update (headers_of ((l0 ++ optional (s "Sec-WebSocket-Extensions") eh) ++ optional (s "Sec-WebSocket-Protocol") sp)) l
     | None => headers_of ((l0 ++ optional (s "Sec-WebSocket-Extensions") eh) ++ optional (s "Sec-WebSocket-Protocol") sp) end =
     headers_of (l0 ++ optional (s "Sec-WebSocket-Extensions") eh ++ optional (s "Sec-WebSocket-Protocol") sp ++
       match sc_extra_headers cfg (req_path req) (req_headers req) with Some l => l | None => [] end)).
  { destruct (sc_extra_headers cfg _ _); [rewrite update_of|rewrite app_nil_r]; now rewrite <- !app_assoc. }
  unfold l0 in U at 1 2. cbn [app] in U. rewrite U. fold (standard env). rewrite set_defaults_of; [reflexivity|apply standard_distinct|].
  intros kv [<-|[<-|[]]]; cbn [fst]; unfold at_most_once; rewrite !values_app, !app_length; unfold l0; destruct eh, sp; cbn; assumption.
Qed.

(* ---- rejections ---- *)

Definition rejection_headers env (upgrade : bool) (body : bytes) : pairs :=
  (if upgrade then [(s "Upgrade", s "websocket")] else []) ++
  [(s "Date", env_date env); (s "Server", env_user_agent env); (s "Content-Length", str_of_N (lenN body));
   (s "Content-Type", s "text/plain; charset=utf-8"); (s "Connection", s "close")].

Lemma reject_of env status phrase text (upgrade : bool) body : utf8_encode text = Ok body ->
  reject env status phrase text (if upgrade then Some (headers_of [(s "Upgrade", s "websocket")]) else None) = Ok {|
    resp_status := status; resp_reason := phrase; resp_headers := headers_of (rejection_headers env upgrade body);
    resp_body := Some body; resp_exception := None |}.
Proof.
  intros Hb. unfold reject. rewrite Hb. cbn [rbind]. unfold rejection_headers. destruct upgrade; cbn [app].
  - rewrite set_defaults_of; [reflexivity| |].
    + repeat constructor; cbn; intuition discriminate.
    + intros kv I. unfold at_most_once. repeat (destruct I as [<-|I]; [cbn; lia|]). destruct I.
  - change headers_empty with (headers_of []). rewrite set_defaults_of; [reflexivity| |].
    + repeat constructor; cbn; intuition discriminate.
    + intros kv I. unfold at_most_once. cbn. lia.
Qed.
