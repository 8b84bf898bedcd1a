(* Properties of servers: shutdown and handlers (C69, C70, C76, C77). *)
From Verif Require Import Base.Prelude Base.PreludeFacts Base.Utf8 Model.Streams Model.Frames Model.Http11 Model.Handshake Model.Server
  Model.Datastructures Model.LegacyHandshake Model.LegacyFraming Model.LegacyProtocol Model.LegacyServer
  Spec.Rfc6455 Spec.Asyncio Spec.AsyncioServer
  Proofs.LegacyPrims Proofs.LegacyFields Proofs.LegacyShapes Proofs.LegacyClose Proofs.LegacyServerFacts Proofs.LegacyBridge
  Properties.FrameCodec Properties.AsyncioState.
Local Open Scope N_scope.

(* An execution of a server: connections, handshakes, handlers, calls, tasks, incoming data,
   close(), in any order *)
Definition serves {E} (X : ext_ops E) cfg scfg (ls : list slabel) (sv : server E) : Prop :=
  sexec X cfg scfg sinitial ls = Some sv.

Definition ex_server_config : config := {|
  c_client := false; c_max_size := Some 100%Z; c_max_queue := Some 1; c_close_timeout := Some 10;
  c_ping_interval := Some 20; c_ping_timeout := Some 20; c_legacy_recv := false;
  c_can_write_eof := true; c_key := fun n => bs [] |}.
Definition ex_serve : server_config Empty_set := {|
  sc_origins := None; sc_extensions := None; sc_subprotocols := None; sc_extra_headers := fun _ _ => None |}.
Definition ex_environment : environment := {|
  env_user_agent := s "Python/3.9 websockets/9.0"; env_date := s "Mon, 01 Jan 2021 00:00:00 GMT";
  env_is_ipv6 := fun _ => false; env_set_order := fun l => l |}.
Definition crlf : bytes := bs [13; 10].
Definition ex_get : bytes :=
  b "GET / HTTP/1.1" ++ crlf ++ b "Host: example.com" ++ crlf ++ b "Upgrade: websocket" ++ crlf ++ b "Connection: Upgrade" ++ crlf ++
  b "Sec-WebSocket-Key: dGhlIHNhbXBsZSBub25jZQ==" ++ crlf ++ b "Sec-WebSocket-Version: 13" ++ crlf ++ crlf.
Definition ex_handshake : hs_event := HsRequest ex_environment ex_get (Ok None).

Lemma by_serving ls (P : server Empty_set -> bool) :
  match sexec no_ext ex_server_config ex_serve sinitial ls with Some sv => P sv | None => false end = true ->
  exists sv, serves no_ext ex_server_config ex_serve ls sv /\ P sv = true.
Proof.
  unfold serves. destruct (sexec no_ext ex_server_config ex_serve sinitial ls) as [sv|]; [|discriminate].
  intros H. exists sv. now split.
Qed.

(* ---- C69 ---- *)

(* Once the server has stopped listening, no connection opens. *)
Theorem C69_no_connection_opens : forall E (X : ext_ops E) cfg scfg ls1 ls2 sv1 sv2 k st2,
  serves X cfg scfg ls1 sv1 -> shutting_down sv1 -> serves X cfg scfg (ls1 ++ ls2) sv2 ->
  connection sv2 k st2 -> p_state st2 = Open ->
  exists st1, connection sv1 k st1 /\ p_state st1 = Open.
Proof.
  intros E X cfg scfg ls1 ls2 sv1 sv2 k st2 H1 D H2 (p2 & K2 & <-) O.
  unfold serves in *. rewrite sexec_app, H1 in H2.
  destruct (open_down X cfg scfg _ _ _ _ _ H2 D K2 O) as (p1 & K1 & O1). exists (h_conn p1). split; [now exists p1|exact O1].
Qed.

Definition conn_is (P : conn Empty_set -> bool) (k : nat) (sv : server Empty_set) : bool :=
  match nth_error (s_peers sv) k with Some p => P (h_conn p) | None => false end.
Definition handler_is (P : hpc -> bool) (k : nat) (sv : server Empty_set) : bool :=
  match nth_error (s_peers sv) k with Some p => P (h_pc p) | None => false end.
Definition responses_are (l : list Z) (k : nat) (sv : server Empty_set) : bool :=
  match nth_error (s_peers sv) k with
  | Some p => (length (h_responses p) =? length l)%nat && forallb (fun x => (fst x =? snd x)%Z) (combine (h_responses p) l)
  | None => false
  end.
Definition state_b (x : pstate) : conn Empty_set -> bool := fun st => pstate_eqb (p_state st) x.

(* A connection opens while the server is serving; it's still open when the server stops listening; a
   second connection is refused. *)
Example C69_no_connection_opens_applies :
  exists sv, serves no_ext ex_server_config ex_serve
    ([SAccept; SAccept; SHandshake 0 ex_handshake; SClose; STask] ++ [SHandshake 1 ex_handshake]) sv /\
  negb (s_serving sv) && conn_is (state_b Open) 0 sv && conn_is (state_b Connecting) 1 sv &&
  responses_are [101%Z] 0 sv && responses_are [503%Z] 1 sv = true.
Proof. apply by_serving. vm_compute. reflexivity. Qed.

(* A handshake that ends once the server has stopped listening fails, with status 503 if the request is
   well formed and process_request doesn't raise an exception. *)
Lemma down_response : forall E env (scfg : server_config E) hook r, 
  match legacy_response env scfg (fun _ _ => hook) false r with
  | Ok (status, _, body) => body <> None /\ status <> 101%Z /\ ((exists req x, r = Ok req /\ hook = Ok x) -> status = 503%Z)
  | Raise _ => ~ exists req x, r = Ok req /\ hook = Ok x
  end.
Proof.
  intros E env scfg hook r.
  assert (Er : forall e, match (let! r := legacy_error e in let! (status, h, body) := legacy_reject env r in Ok (status, h, Some body)) with
    | Ok (status, _, body) => body <> None /\ status <> 101%Z | Raise _ => True end).
  { intros e. destruct (legacy_error e) as [[[status h] body]|] eqn:L; cbn [rbind]; [|exact Logic.I].
    assert (N : status <> 101%Z).
    { intros ->. unfold legacy_error in L.
      destruct e; try (destruct (is_invalid_handshake _)); try discriminate; destruct (utf8_encode _); discriminate. }
    unfold legacy_reject. destruct (set_defaults _ _); cbn [rbind]; [|exact Logic.I]. split; [discriminate|exact N]. }
  unfold legacy_response. destruct r as [req|e].
  - unfold legacy_handshake. destruct hook as [x|e].
    + assert (J : exists h, legacy_reject env (503%Z, [], map n2b (s "Server is shutting down." ++ nl)) = Ok (503%Z, h, map n2b (s "Server is shutting down." ++ nl))).
      { unfold legacy_reject. 
        match goal with |- context [set_defaults ?h ?l] => assert (Q : exists r, set_defaults h l = Ok r) end.
        { cbn [set_defaults headers_of]. eexists. reflexivity. }
        destruct Q as [r ->]. eexists. reflexivity. }
      destruct J as [h ->]. cbn [rbind]. split; [discriminate|]. split; [discriminate|reflexivity].
    + specialize (Er e). destruct (rbind (legacy_error e) _) as [[[status h] body]|].
      * destruct Er. split; [assumption|]. split; [assumption|]. intros (? & ? & _ & ?). discriminate.
      * intros (? & ? & _ & ?). discriminate.
  - specialize (Er e). destruct (rbind (legacy_error e) _) as [[[status h] body]|].
    + destruct Er. split; [assumption|]. split; [assumption|]. intros (? & ? & ? & _). discriminate.
    + intros (? & ? & ? & _). discriminate.
Qed.
Theorem C69_handshake_fails : forall E (X : ext_ops E) cfg scfg ls sv k o sv',
  serves X cfg scfg ls sv -> shutting_down sv -> sstep X cfg scfg sv (SHandshake k o) = Some sv' ->
  exists l, responses sv' k l /\ ~ In 101%Z l /\
    (forall env data hook req x, o = HsRequest env data hook -> read_http_request data = Ok req -> hook = Ok x -> l = [503%Z]).
Proof.
  intros E X cfg scfg ls sv k o sv' H D S. pose proof (SInv_sexec X cfg scfg _ _ _ (SInv_initial cfg) H) as I.
  cbn [sstep] in S. unfold with_peer in S. destruct (nth_error (s_peers sv) k) as [p|] eqn:K; [|discriminate].
  destruct (h_pc p) eqn:Hpc; try discriminate. apply some_inj in S as <-. unfold responses. cbn [s_peers].
  rewrite nth_error_replace_eq by (apply nth_error_Some; congruence).
  destruct (peer_inv cfg _ _ _ I K) as (G & _ & C). rewrite Hpc in C. destruct C as [P R]. rewrite D.
  exists (h_responses (h_handshake X cfg scfg p false o)). split; [eauto|].
  unfold h_handshake. destruct o as [env data hook| |].
  2:{ cbn [h_raise h_end h_responses]. rewrite R. split; [easy|]. discriminate. }
  2:{ cbn [h_end h_responses]. rewrite R. split; [easy|]. discriminate. }
  pose proof (down_response E env scfg hook (read_http_request data)) as Q.
  destruct (legacy_response env scfg (fun _ _ => hook) false (read_http_request data)) as [[[status h] body]|e].
  - destruct Q as (Q1 & Q2 & Q3). destruct body as [body|]; [|easy].
    unfold h_reject. destruct (fail_1006 X cfg _ P) as (st' & -> & _). cbn [h_responses]. rewrite R. cbn [app].
    split; [intros [N|[]]; congruence|]. intros env0 data0 hook0 req x Ho Hr Hh. injection Ho as -> -> ->. rewrite Q3; [reflexivity|eauto].
  - cbn [h_raise h_end h_responses]. rewrite R. split; [easy|]. intros env0 data0 hook0 req x Ho Hr Hh. injection Ho as -> -> ->.
    destruct Q. eauto.
Qed.
Example C69_handshake_fails_applies :
  (exists sv, serves no_ext ex_server_config ex_serve [SAccept; SClose; STask] sv /\ negb (s_serving sv) = true) /\
  (exists sv, serves no_ext ex_server_config ex_serve [SAccept; SClose; STask; SHandshake 0 ex_handshake] sv /\ responses_are [503%Z] 0 sv = true) /\
  (exists req, read_http_request ex_get = Ok req).
Proof. split; [apply by_serving; vm_compute; reflexivity|]. split; [apply by_serving; vm_compute; reflexivity|]. eexists. vm_compute. reflexivity. Qed.

(* The closing task calls close(1001) on each registered connection, and wait_closed() doesn't return
   before these calls end; then the connections aren't open, unless the call was cancelled. *)
Theorem C69_going_away : forall E (X : ext_ops E) cfg scfg ls1 sv1 sv2 k st1,
  serves X cfg scfg ls1 sv1 -> s_close sv1 = SSleep -> sstep X cfg scfg sv1 STask = Some sv2 ->
  is_registered sv1 k -> connection sv1 k st1 ->
  exists st2 i, connection sv2 k st2 /\ nth_error (p_users st2) i = Some (UStart (CallClose 1001 []), false) /\
    p_state st2 = p_state st1 /\
    forall ls2 sv3, sexec X cfg scfg sv2 ls2 = Some sv3 -> server_closed sv3 ->
      exists st3 r c, connection sv3 k st3 /\ nth_error (p_users st3) i = Some (UDone r, c) /\
        (r = RRaise CancelledError \/ (c_close_timeout cfg <> Some 0 -> p_state st3 <> Open)).
Proof.
  intros E X cfg scfg ls1 sv1 sv2 k st1 H1 Hs S (p & K & R) (p0 & K0 & <-). assert (p0 = p) as -> by congruence. clear K0.
  pose proof (SInv_sexec X cfg scfg _ _ _ (SInv_initial cfg) H1) as I1.
  pose proof (SInv_step X cfg scfg _ _ _ I1 S) as I2.
  cbn [sstep] in S. unfold step_close in S. rewrite Hs in S.
  pose proof (going_away_calls_spec 0 (s_peers sv1) k p K R) as In0. cbn [Nat.add] in In0.
  destruct (going_away_calls 0 (s_peers sv1)) as [|x cs] eqn:C; [contradiction|]. rewrite <- C in *. clear x cs C.
  apply some_inj in S as S2.
  assert (Hc : s_close sv2 = SWaitClose (going_away_calls 0 (s_peers sv1))) by (now rewrite <- S2).
  assert (K2 : nth_error (s_peers sv2) k = Some (going_away p)). { rewrite <- S2. cbn [s_peers]. now rewrite nth_error_map, K. }
  assert (Sd : s_serving sv2 = false). { destruct I2 as (_ & I2 & _). rewrite Hc in I2. exact I2. }
  assert (U : nth_error (p_users (h_conn (going_away p))) (length (p_users (h_conn p))) = Some (UStart (CallClose 1001 []), false)).
  { unfold going_away. rewrite R. now apply nth_start. }
  exists (h_conn (going_away p)), (length (p_users (h_conn p))).
  split; [now exists (going_away p)|]. split; [exact U|]. split; [unfold going_away; now rewrite R|].
  intros ls2 sv3 H3 Cl. pose proof (SInv_sexec X cfg scfg _ _ _ I2 H3) as I3.
  destruct (sexec_moves_down X cfg scfg _ _ _ H3 Sd (serving_down X cfg scfg) _ _ K2) as (p3 & K3 & M).
  destruct (peer_inv cfg _ _ _ I2 K2) as (G2 & _).
  assert (Q : Closer cfg 1001 (h_conn (going_away p)) (length (p_users (h_conn p)))).
  { exists (UStart (CallClose 1001 [])), false. split; [exact U|now left]. }
  assert (Q3 : Closer cfg 1001 (h_conn p3) (length (p_users (h_conn p)))).
  { refine (Closer_moves X cfg 1001 _ _ _ _ _ M G2 Q). vm_compute. reflexivity. }
  destruct (wait_close_sexec X cfg scfg _ _ _ _ I2 H3 Hc) as [N|N].
  { destruct I3 as (_ & _ & N3). rewrite N in N3. unfold server_closed in Cl. congruence. }
  rewrite Forall_forall in N. specialize (N _ In0). unfold call_done in N. cbn [fst snd] in N. rewrite K3 in N.
  destruct Q3 as (pc & c & U3 & Q3). rewrite U3 in N. destruct pc as [| | | | | | | | | | | | | | | |r]; try discriminate.
  exists (h_conn p3), r, c. split; [now exists p3|]. split; [exact U3|].
  destruct Q3 as [Q3|[Q3|[_ Q3]]]; [discriminate|left; now injection Q3|right; exact Q3].
Qed.

(* When such a call runs on a connection that is still open, it sends a close frame with code 1001.
   This holds with extensions that don't change close frames, such as permessage-deflate. *)
Definition keeps_close_frames {E} (X : ext_ops E) : Prop :=
  forall e f, f_opcode f = CLOSE -> exists e', ext_encode X e f = (e', Ok f).
Lemma encode_close {E} (X : ext_ops E) exts f : keeps_close_frames X -> f_opcode f = CLOSE ->
  exists exts', encode_in_order X exts f = (exts', Ok f).
Proof.
  intros Kx O. induction exts as [|e exts [exts' IH]]; cbn [encode_in_order]; [eauto|].
  destruct (Kx e f O) as [e' ->]. rewrite IH. eauto.
Qed.
Theorem C69_code_1001 : forall E (X : ext_ops E) cfg scfg sv k st i sv',
  keeps_close_frames X -> c_client cfg = false -> c_close_timeout cfg <> Some 0 ->
  connection sv k st -> nth_error (p_users st) i = Some (UStart (CallClose 1001 []), false) -> p_state st = Open ->
  sstep X cfg scfg sv (SConn k (LUser i Go)) = Some sv' ->
  exists st' x, connection sv' k st' /\ p_state st' = Closing /\ p_out st' = p_out st ++ [x] /\ close_frame (o_frame x) 1001 [].
Proof.
  intros E X cfg scfg sv k st i sv' Kx Cl N0 (p & K & <-) U O S.
  cbn [sstep own_step] in S. unfold with_peer in S. rewrite K in S.
  cbn [step] in S. unfold step_user in S. rewrite U in S. cbn [step_call start_call] in S.
  apply some_inj in S as <-.
  unfold connection. cbn [s_peers]. rewrite nth_error_replace_eq by (apply nth_error_Some; congruence).
  assert (D : serialize_close 1001 [] = Ok (bs [3; 233])) by (vm_compute; reflexivity).
  assert (Q : exists x, p_state (close_start X cfg (h_conn p) i 1001 []) = Closing /\
    p_out (close_start X cfg (h_conn p) i 1001 []) = p_out (h_conn p) ++ [x] /\ o_frame x = mkframe true CLOSE (bs [3; 233])).
  { unfold close_start. rewrite D. unfold write_close_frame. rewrite O. cbn [is_open]. unfold write_frame.
    change (p_state (set_state Closing (h_conn p))) with Closing. cbn [pstate_eqb negb].
    unfold write, serialize. change (check (mkframe true CLOSE (bs [3; 233]))) with (Ok tt). cbv iota.
    destruct (encode_close X (p_exts (set_state Closing (h_conn p))) (mkframe true CLOSE (bs [3; 233])) Kx eq_refl) as [exts' ->].
    rewrite Cl. match goal with |- context [wire ?f false ?k] => assert (W : exists d, wire f false k = Ok d) end.
    { eexists. vm_compute. reflexivity. }
    destruct W as [d ->]. destruct (c_close_timeout cfg) as [[|t]|]; [easy|..]; eexists; repeat split; reflexivity. }
  destruct Q as (x & Q1 & Q2 & Q3). eexists _, x. split; [eexists; split; [reflexivity|]; cbn [h_conn]; reflexivity|].
  split; [exact Q1|]. split; [exact Q2|]. rewrite Q3. split; [reflexivity|]. right. split; [unfold sendable_close_code; lia|].
  exists (n2b 3), (n2b 233), []. split; [reflexivity|]. split; [reflexivity|constructor].
Qed.
Example C69_going_away_applies :
  (exists sv, serves no_ext ex_server_config ex_serve [SAccept; SHandshake 0 ex_handshake; SClose; STask; STask] sv /\
     match s_close sv with SSleep => conn_is (state_b Open) 0 sv | _ => false end = true) /\
  exists sv, serves no_ext ex_server_config ex_serve
    [SAccept; SHandshake 0 ex_handshake; SClose; STask; STask; STask; SConn 0 (LUser 0 Go)] sv /\
    conn_is (fun st => match p_out st with [x] => opcode_eqb (f_opcode (o_frame x)) CLOSE && bytes_eqb (f_data (o_frame x)) (bs [3; 233]) | _ => false end) 0 sv = true.
Proof. split; apply by_serving; vm_compute; reflexivity. Qed.
Example no_ext_keeps_close_frames : keeps_close_frames no_ext.
Proof. intros []. Qed.

(* The whole shutdown of a server with an open connection.  The peer answers the close frame and closes
   the TCP connection. *)
Definition ex_shutdown : list slabel :=
  [SAccept; SHandshake 0 ex_handshake; SClose; STask; STask; STask; SConn 0 (LUser 0 Go); SConn 0 (LUser 0 DrainOk);
   SConn 0 (LData (bs [136; 130; 0; 0; 0; 0; 3; 233])); SConn 0 (LT Go); SConn 0 (LK Go); SConn 0 (LC Go);
   SConn 0 (LC Go); SConn 0 (LLost None true); SConn 0 (LC Go); SConn 0 (LUser 0 Go); SConn 0 (LUser 0 Go); STask;
   SUserEnds 0 UserReturns; SConn 0 (LUser 1 Go); SConn 0 (LUser 1 Go); SConn 0 (LUser 1 Go); SResume 0; STask].
Lemma in_time_first {E} (X : ext_ops E) cfg scfg ls : ~ In SAccept ls -> in_time X cfg scfg (SAccept :: ls).
Proof.
  intros N ls1 l ls2 sv Q H [-> L]. destruct ls1 as [|l1 ls1]; cbn [app] in Q.
  - apply some_inj in H as <-. exact L.
  - injection Q as _ Q. apply N. rewrite Q, in_app_iff. right. now left.
Qed.
Example ex_shutdown_in_time : in_time no_ext ex_server_config ex_serve ex_shutdown.
Proof. apply in_time_first. cbn [In]. intros H. repeat (destruct H as [H|H]; [discriminate|]). exact H. Qed.

(* When wait_closed() returns, all handlers have returned.  This is false if a connection is made after
   the closing task has looked for connections: see below. *)
Theorem C69_handlers_returned_partial : forall E (X : ext_ops E) cfg scfg ls sv k st,
  serves X cfg scfg ls sv -> in_time X cfg scfg ls -> server_closed sv -> connection sv k st -> handler_returned sv k.
Proof.
  intros E X cfg scfg ls sv k st H T C (p & K & _).
  pose proof (SInv_sexec X cfg scfg _ _ _ (SInv_initial cfg) H) as I.
  pose proof (Cov_sexec X cfg scfg _ _ _ (SInv_initial cfg) Logic.I H T) as V.
  unfold Cov in V. destruct I as (F & I1 & I2). unfold server_closed in C. rewrite C in I2. destruct (s_close sv); try discriminate.
  specialize (V k p K). rewrite Forall_forall in F. destruct (F p (nth_error_In _ _ K)) as (_ & R & _).
  rewrite V in R. unfold ended in R. destruct (h_pc p) eqn:Q; try discriminate. exists p, cancelled. now split.
Qed.
Example C69_handlers_returned_applies :
  exists sv, serves no_ext ex_server_config ex_serve ex_shutdown sv /\
  s_closed sv && conn_is (state_b Closed) 0 sv && handler_is (fun pc => match pc with HDone false => true | _ => false end) 0 sv = true.
Proof. apply by_serving. vm_compute. reflexivity. Qed.

(* A connection that the event loop has accepted before the server stops listening, but which is made
   later, for example because of its TLS handshake: wait_closed() returns while it's being handled. *)
Theorem C69_handlers_returned_refuted :
  exists sv, serves no_ext ex_server_config ex_serve [SClose; STask; STask; STask; SAccept] sv /\
  (s_closed sv && handler_is (fun pc => match pc with HHandshake => true | _ => false end) 0 sv = true).
Proof. apply by_serving. vm_compute. reflexivity. Qed.

(* When wait_closed() returns, no connection is open, except those whose handler was cancelled. *)
Theorem C69_no_open_connection_partial : forall E (X : ext_ops E) cfg scfg ls sv k st,
  serves X cfg scfg ls sv -> in_time X cfg scfg ls -> c_close_timeout cfg <> Some 0 ->
  server_closed sv -> connection sv k st -> ~ handler_cancelled sv k -> p_state st <> Open.
Proof.
  intros E X cfg scfg ls sv k st H T N0 C Hk Nc.
  destruct (C69_handlers_returned_partial E X cfg scfg ls sv k st H T C Hk) as (p & [] & K & Q); [destruct Nc; now exists p|].
  destruct Hk as (p' & K' & <-). assert (p' = p) as -> by congruence.
  pose proof (SInv_sexec X cfg scfg _ _ _ (SInv_initial cfg) H) as I.
  destruct (peer_inv cfg _ _ _ I K) as (_ & _ & D). rewrite Q in D. now apply D.
Qed.
(* CancelledError isn't caught in the handler, so that the connection is unregistered but not closed. *)
Theorem C69_no_open_connection_refuted :
  in_time no_ext ex_server_config ex_serve [SAccept; SHandshake 0 ex_handshake; SUserEnds 0 UserCancelled; SClose; STask; STask; STask] /\
  exists sv, serves no_ext ex_server_config ex_serve [SAccept; SHandshake 0 ex_handshake; SUserEnds 0 UserCancelled; SClose; STask; STask; STask] sv /\
  (s_closed sv && conn_is (state_b Open) 0 sv = true).
Proof.
  split; [|apply by_serving; vm_compute; reflexivity].
  apply in_time_first. cbn [In]. intros H. repeat (destruct H as [H|H]; [discriminate|]). exact H.
Qed.

(* ---- C70 ---- *)

(* A connection is registered until its handler returns. *)
Theorem C70_unregistered : forall E (X : ext_ops E) cfg scfg ls sv k st,
  serves X cfg scfg ls sv -> connection sv k st -> (is_registered sv k <-> ~ handler_returned sv k).
Proof.
  intros E X cfg scfg ls sv k st H (p & K & _).
  pose proof (SInv_sexec X cfg scfg _ _ _ (SInv_initial cfg) H) as I.
  destruct (peer_inv cfg _ _ _ I K) as (_ & R & _). unfold ended in R. split.
  - intros (p1 & K1 & R1) (p2 & c & K2 & Q2). rewrite K in K1, K2. apply some_inj in K1 as <-. apply some_inj in K2 as <-.
    rewrite Q2, R1 in R. discriminate.
  - intros N. exists p. split; [exact K|]. destruct (h_pc p) eqn:Q; try exact R. destruct N. now exists p, cancelled.
Qed.
(* When the handler has returned, the TCP connection is closed or being closed.  This is false if the
   handler was cancelled. *)
Theorem C70_transport_closed_partial : forall E (X : ext_ops E) cfg scfg ls sv k st,
  serves X cfg scfg ls sv -> connection sv k st -> handler_returned sv k -> ~ handler_cancelled sv k ->
  tcp_closed st \/ tcp_closing st.
Proof.
  intros E X cfg scfg ls sv k st H (p & K & <-) (p0 & [] & K0 & Q) Nc; [destruct Nc; now exists p0|].
  assert (p0 = p) as -> by congruence. pose proof (SInv_sexec X cfg scfg _ _ _ (SInv_initial cfg) H) as I.
  destruct (peer_inv cfg _ _ _ I K) as (_ & _ & D). rewrite Q in D. destruct D as [[D|[D|D]] _].
  - now left.
  - right. now right.
  - right. now left.
Qed.
Example C70_transport_closed_applies :
  (exists sv, serves no_ext ex_server_config ex_serve [SAccept; SHandshake 0 ex_handshake; SUserEnds 0 UserRaises] sv /\
    handler_is (fun pc => match pc with HDone false => true | _ => false end) 0 sv && conn_is (state_b Closing) 0 sv && conn_is p_closing 0 sv = true) /\
  exists sv, serves no_ext ex_server_config ex_serve [SAccept; SHandshake 0 (HsRequest ex_environment (b "GET") (Ok None));
      SConn 0 (LUser 0 Go); SConn 0 (LLost None true); SConn 0 (LUser 0 Go); SResume 0] sv /\
    handler_is (fun pc => match pc with HDone false => true | _ => false end) 0 sv && conn_is (state_b Closed) 0 sv && responses_are [400%Z] 0 sv = true.
Proof. split; apply by_serving; vm_compute; reflexivity. Qed.
Theorem C70_transport_closed_refuted :
  exists sv, serves no_ext ex_server_config ex_serve [SAccept; SHandshake 0 ex_handshake; SUserEnds 0 UserCancelled] sv /\
  (handler_is (fun pc => match pc with HDone true => true | _ => false end) 0 sv &&
   conn_is (fun st => state_b Open st && negb (p_closing st) && match p_aborted st, p_lost st with None, None => true | _, _ => false end) 0 sv = true).
Proof. apply by_serving. vm_compute. reflexivity. Qed.

(* ---- C76 ---- *)

(* When wait_closed() returns, TCP connections are closed or being closed. *)
Theorem C76_connections_closed_partial : forall E (X : ext_ops E) cfg scfg ls sv k st,
  serves X cfg scfg ls sv -> in_time X cfg scfg ls -> server_closed sv -> connection sv k st -> ~ handler_cancelled sv k ->
  tcp_closed st \/ tcp_closing st.
Proof.
  intros E X cfg scfg ls sv k st H T C Hk Nc.
  apply (C70_transport_closed_partial E X cfg scfg ls sv k st H Hk); [|exact Nc].
  exact (C69_handlers_returned_partial E X cfg scfg ls sv k st H T C Hk).
Qed.
Example C76_connections_closed_applies :
  exists sv, serves no_ext ex_server_config ex_serve ex_shutdown sv /\ s_closed sv && conn_is (fun st => match p_lost st with Some _ => true | None => false end) 0 sv = true.
Proof. apply by_serving. vm_compute. reflexivity. Qed.
(* They may not be closed yet: the handler that raises an exception doesn't wait for it. *)
Theorem C76_connections_closed_refuted :
  in_time no_ext ex_server_config ex_serve [SAccept; SHandshake 0 ex_handshake; SUserEnds 0 UserRaises; SClose; STask; STask; STask] /\
  exists sv, serves no_ext ex_server_config ex_serve [SAccept; SHandshake 0 ex_handshake; SUserEnds 0 UserRaises; SClose; STask; STask; STask] sv /\
  (s_closed sv && conn_is (fun st => match p_lost st with None => true | Some _ => false end) 0 sv &&
   handler_is (fun pc => match pc with HDone false => true | _ => false end) 0 sv = true).
Proof.
  split; [|apply by_serving; vm_compute; reflexivity].
  apply in_time_first. cbn [In]. intros H. repeat (destruct H as [H|H]; [discriminate|]). exact H.
Qed.

(* ---- C77 ---- *)

(* Every connection of a server is the result of an execution of a connection, with the extensions
   negotiated by the handshake, so that the theorems about connections (C55-C68, C74, C75) apply to it. *)
Theorem C77_server_connection : forall E (X : ext_ops E) cfg scfg ls sv k st,
  serves X cfg scfg ls sv -> connection sv k st -> exists exts ls', execution X cfg exts ls' st.
Proof.
  intros E X cfg scfg ls sv k st H (p & K & <-). pose proof (sexec_execution X cfg scfg ls sv H) as F.
  rewrite Forall_forall in F. destruct (F p (nth_error_In _ _ K)) as (exts & ls' & Q & _). now exists exts, ls'.
Qed.
(* For example, whatever handlers and the closing task do, at most one close frame is sent, as the last
   frame, and the queue of messages is bounded. *)
Theorem C77_one_close_frame : forall E (X : ext_ops E) cfg scfg ls sv k st before x after,
  serves X cfg scfg ls sv -> connection sv k st ->
  p_out st = before ++ x :: after -> f_opcode (o_frame x) = CLOSE ->
  after = [] /\ Forall (fun y => f_opcode (o_frame y) <> CLOSE) before.
Proof.
  intros E X cfg scfg ls sv k st before x after H C. destruct (C77_server_connection E X cfg scfg ls sv k st H C) as (exts & ls' & Q).
  now apply (C61_one_close_frame E X cfg exts ls').
Qed.
Theorem C77_queue_bounded : forall E (X : ext_ops E) cfg scfg ls sv k st n,
  c_max_queue cfg = Some n -> serves X cfg scfg ls sv -> connection sv k st -> lenN (p_messages st) <= n.
Proof.
  intros E X cfg scfg ls sv k st n M H C. destruct (C77_server_connection E X cfg scfg ls sv k st H C) as (exts & ls' & Q).
  now apply (C58_queue_bounded E X cfg exts ls').
Qed.
(* The server and the handler both close the connection. *)
Example C77_applies :
  exists sv, serves no_ext ex_server_config ex_serve
    [SAccept; SHandshake 0 ex_handshake; SUserEnds 0 UserReturns; SClose; STask; STask; STask; SConn 0 (LUser 0 Go); SConn 0 (LUser 1 Go)] sv /\
  conn_is (fun st => match p_out st with [x] => opcode_eqb (f_opcode (o_frame x)) CLOSE | _ => false end) 0 sv = true.
Proof. apply by_serving. vm_compute. reflexivity. Qed.

Print Assumptions C69_no_connection_opens.
Print Assumptions C69_handshake_fails.
Print Assumptions C69_going_away.
Print Assumptions C69_code_1001.
Print Assumptions C69_handlers_returned_partial.
Print Assumptions C69_handlers_returned_refuted.
Print Assumptions C69_no_open_connection_partial.
Print Assumptions C69_no_open_connection_refuted.
Print Assumptions C70_unregistered.
Print Assumptions C70_transport_closed_partial.
Print Assumptions C70_transport_closed_refuted.
Print Assumptions C76_connections_closed_partial.
Print Assumptions C76_connections_closed_refuted.
Print Assumptions C77_server_connection.
Print Assumptions C77_one_close_frame.
Print Assumptions C77_queue_bounded.
