(* Properties of connect(): TCP connections are closed (C81), redirects (C82). *)
From Verif Require Import Base.Prelude Base.PreludeFacts Model.Streams Model.Frames Model.Http11 Model.Handshake Model.Client Model.Uri
  Model.Datastructures Model.LegacyHandshake Model.LegacyFraming Model.LegacyProtocol Model.LegacyServer Model.Connect Model.LegacyClient
  Spec.Rfc6455 Spec.Asyncio Spec.AsyncioServer Spec.AsyncioConnect
  Proofs.LegacyPrims Proofs.LegacyFields Proofs.LegacyShapes Proofs.LegacyClose Proofs.LegacyServerFacts Proofs.LegacyBridge Proofs.LegacyClientFacts
  Properties.FrameCodec Properties.Uri Properties.Redirects Properties.AsyncioState Properties.AsyncioClosing Properties.AsyncioHang Spec.AsyncioHang.
Local Open Scope N_scope.

(* An execution of connect(uri, ...): responses, exceptions, cancellation, incoming data, tasks, calls,
   lost connections, in any order *)
Definition connects {E} (X : ext_ops E) cfg ccfg ue uri args (ls : list klabel) (k : connecting E) : Prop :=
  exists cs, connect_init ue uri args = Ok cs /\ kexec X cfg ccfg ue (kinitial cs) ls = Some k.

Lemma connects_inv E (X : ext_ops E) cfg ccfg ue uri args ls k : connects X cfg ccfg ue uri args ls k -> KInv X cfg k.
Proof. intros (cs & _ & H). exact (kexec_inv X cfg ccfg ue ls _ _ (kinitial_inv X cfg cs) H). Qed.

Definition ex_crlf : bytes := bs [13; 10].
Definition ex_client : client_config Empty_set := {|
  cc_wsuri := {| uri_secure := false; uri_host := s "one.example"; uri_port := 80; uri_resource_name := s "/"; uri_user_info := None |};
  cc_origin := None; cc_extensions := None; cc_subprotocols := None; cc_extra_headers := None |}.
(* a response that accepts the connection, and one that redirects to wss://two.example/ *)
Definition ex_switch : hc_event := HcResponse (s "dGhlIHNhbXBsZSBub25jZQ==")
  (b "HTTP/1.1 101 Switching Protocols" ++ ex_crlf ++ b "Upgrade: websocket" ++ ex_crlf ++ b "Connection: Upgrade" ++ ex_crlf ++
   b "Sec-WebSocket-Accept: s3pPLMBiTxaQ9kYGzzhZRbK+xOo=" ++ ex_crlf ++ ex_crlf).
Definition ex_redirect : hc_event := HcResponse (s "dGhlIHNhbXBsZSBub25jZQ==")
  (b "HTTP/1.1 302 Found" ++ ex_crlf ++ b "Location: wss://two.example/" ++ ex_crlf ++ ex_crlf).
(* the first connection is closed after a redirect, and a second one is made *)
Definition ex_closed : list klabel :=
  [KConn 0 (LUser 0 Go); KConn 0 (LC Go); KConn 0 (LLost None true); KConn 0 (LC Go); KConn 0 (LUser 0 Go); KResume].
Definition ex_follow : list klabel := [KCreate None; KHandshake ex_redirect] ++ ex_closed ++ [KCreate None].
Notation ex_connects := (connects no_ext ex_config ex_client ex_uri_env (s "ws://one.example/") no_args).
Lemma by_connecting ls (P : connecting Empty_set -> bool) :
  match connect_init ex_uri_env (s "ws://one.example/") no_args with
  | Ok cs => match kexec no_ext ex_config ex_client ex_uri_env (kinitial cs) ls with Some k => P k | None => false end
  | Raise _ => false
  end = true ->
  exists k, ex_connects ls k /\ P k = true.
Proof.
  unfold connects. destruct (connect_init ex_uri_env (s "ws://one.example/") no_args) as [cs|]; [|discriminate].
  destruct (kexec no_ext ex_config ex_client ex_uri_env (kinitial cs) ls) as [k|] eqn:H; [|discriminate].
  intros Q. exists k. split; [|exact Q]. exists cs. now split.
Qed.
Definition lost_b (st : conn Empty_set) : bool := match p_lost st with Some _ => true | None => false end.
Definition pc_b (f : apc -> bool) (k : connecting Empty_set) : bool := f (k_pc k).
Definition losts (k : connecting Empty_set) : list bool := map lost_b (k_conns k).
Definition bools_eqb (l1 l2 : list bool) : bool := (length l1 =? length l2)%nat && forallb (fun x => Bool.eqb (fst x) (snd x)) (combine l1 l2).

(* ---- C81 ---- *)

(* When connect() raises an exception, or when it's cancelled while it makes a TCP connection, all the
   TCP connections that it made are closed.  When it's cancelled while it waits for the TCP connection
   to be closed, this connection is being closed and the other ones are closed.
   What's missing for the full property is in the next theorem. *)
Theorem C81_connections_closed_partial : forall E (X : ext_ops E) cfg ccfg ue uri args ls k,
  connects X cfg ccfg ue uri args ls k ->
  (forall e, connect_raised k e -> Forall tcp_closed (connections k)) /\
  (connect_cancelled k InCreateConnection -> Forall tcp_closed (connections k)) /\
  (connect_cancelled k InWaitClosed ->
   exists st older, connections k = st :: older /\ closing_task_started st /\ Forall tcp_closed older).
Proof.
  intros E X cfg ccfg ue uri args ls k H. apply connects_inv in H as (F & L & P & B).
  unfold connect_raised, connect_cancelled, connections, closing_task_started. destruct (k_conns k) as [|c old].
  - split; [intros; constructor|]. split; [intros; constructor|]. intros Q. rewrite Q in P. discriminate.
  - cbn [tl] in L. split; [intros e Q|split; intros Q]; rewrite Q in P; cbn [last_ok] in P; [now constructor..|].
    destruct P as (_ & _ & P). exists c, old. split; [reflexivity|]. split; [|exact L]. intros Z. now rewrite Z in P.
Qed.

Example C81_connections_closed_applies :
  (* a redirect to a server that can't be reached *)
  (exists k, ex_connects ([KCreate None; KHandshake ex_redirect] ++ ex_closed ++ [KCreate (Some RuntimeError)]) k /\
     pc_b (fun pc => match pc with ARaised RuntimeError => true | _ => false end) k && bools_eqb (losts k) [true] = true) /\
  (* a redirect, then an invalid response *)
  (exists k, ex_connects (ex_follow ++ [KHandshake (HcResponse [] (b "SSH-2.0-OpenSSH" ++ ex_crlf))] ++ ex_closed) k /\
     pc_b (fun pc => match pc with ARaised (InvalidMessage _) => true | _ => false end) k && bools_eqb (losts k) [true; true] = true) /\
  (* cancelled in the second create_connection *)
  (exists k, ex_connects ([KCreate None; KHandshake ex_redirect] ++ ex_closed ++ [KCancel]) k /\
     pc_b (fun pc => match pc with ACancelled InCreateConnection => true | _ => false end) k && bools_eqb (losts k) [true] = true) /\
  (* cancelled in wait_closed() *)
  (exists k, ex_connects (ex_follow ++ [KHandshake ex_redirect; KConn 0 (LUser 0 Go); KConn 0 (LCancel 0); KConn 0 (LUser 0 Go); KResume]) k /\
     pc_b (fun pc => match pc with ACancelled InWaitClosed => true | _ => false end) k && bools_eqb (losts k) [false; true] = true).
Proof. split; [|split; [|split]]; apply by_connecting; vm_compute; reflexivity. Qed.

(* connect() doesn't wait forever when it closes a TCP connection, and closing goes on if it's cancelled:
   when nothing can run any more, the TCP connection is closed or aborted, and if it's closed, connect()
   goes on. *)
Lemma shut_stuck E (X : ext_ops E) cfg st : c_close_timeout cfg <> None -> shut cfg st -> stuck X cfg st -> p_C st = CDone None.
Proof.
  intros Ct [_ S] K.
  assert (Now : forall d a, step_C cfg (set_now (p_now st + d) st) a <> None -> False) by (intros d a Q; apply Q; exact (K d (LC a) Logic.I)).
  unfold step_C in Now. cbn [p_C set_now] in Now.
  destruct (p_C st) as [| | |d|d|d [e|]|d [e|]|[e|]]; try contradiction; try reflexivity; exfalso;
    try (apply (Now 0 Go); discriminate);
    (destruct d as [x|]; [|now destruct (S Ct)]; apply (Now x Timeout); unfold expired; cbn [p_now set_now];
     replace (x <=? p_now st + x) with true by (symmetry; apply N.leb_le; lia); try discriminate; now destruct (is_lost _)).
Qed.
Theorem C81_closing_ends : forall E (X : ext_ops E) cfg ccfg ue uri args ls k st,
  connects X cfg ccfg ue uri args ls k -> c_close_timeout cfg <> None ->
  connect_closing k \/ connect_cancelled k InWaitClosed -> last_connection k st -> stuck X cfg st ->
  (tcp_closed st \/ p_aborted st <> None) /\
  (connect_closing k -> tcp_closed st -> exists k', kstep X cfg ccfg ue k KResume = Some k').
Proof.
  intros E X cfg ccfg ue uri args ls k st H Ct Hp (old & Kc) K. apply connects_inv in H as (F & _ & P & _). rewrite Kc in *.
  assert (R : ran X cfg st) by (now inversion F). apply ran_Good in R as (_ & _ & En).
  unfold connect_closing, connect_cancelled in *. split.
  - assert (S : shut cfg st).
    { destruct Hp as [(f & i & Hp)|Hp]; rewrite Hp in P; cbn [last_ok] in P; [destruct P as (_ & _ & P)|destruct P as [_ P]]; exact P. }
    pose proof (shut_stuck E X cfg st Ct S K) as Q. unfold Ended in En. rewrite Q in En. exact En.
  - intros (f & i & Q) L. clear Hp. rewrite Q in P. cbn [last_ok] in P. destruct P as (_ & (pc & c & Hi & W) & _).
    cbn [kstep]. unfold k_resume. rewrite Kc, Q, Hi.
    assert (Now : step_user X cfg (set_now (p_now st + 0) st) i Go = None) by exact (K 0 (LUser i Go) Logic.I).
    unfold step_user in Now. cbn [set_now p_users] in Now. rewrite Hi in Now.
    destruct pc as [[]| | | | | | | | | | | | | | | |r]; try contradiction; try (destruct c; discriminate).
    + exfalso. destruct c; [discriminate|]. cbn [step_call] in Now. unfold is_lost in Now. cbn [set_now p_lost] in Now.
      unfold tcp_closed in L. destruct (p_lost st); [discriminate|now destruct L].
    + destruct r as [| | |e]; try contradiction; [|eauto]. destruct f as [u|e]; [|eauto].
      destruct (handle_redirect ue (k_state k) u); eauto.
Qed.

(* after a redirect, the TCP connection is closed *)
Example C81_closing_ends_applies :
  c_close_timeout ex_config <> None /\
  exists k, ex_connects ([KCreate None; KHandshake ex_redirect; KConn 0 (LUser 0 Go); KConn 0 (LC Go); KConn 0 (LLost None true);
     KConn 0 (LC Go); KConn 0 (LUser 0 Go)]) k /\
   connect_closing k /\ exists st, last_connection k st /\ stuck no_ext ex_config st /\ tcp_closed st.
Proof.
  split; [discriminate|].
  match goal with |- exists k, connects _ _ _ _ _ _ ?ls k /\ _ =>
    destruct (by_connecting ls (fun k => pc_b (fun pc => match pc with AFail _ _ => true | _ => false end) k &&
      match k_conns k with st :: _ => stuck_b st && lost_b st | [] => false end)) as (k & A & B) end; [vm_compute; reflexivity|].
  exists k. split; [exact A|]. clear A. apply andb_prop in B as [B1 B2]. split.
  - unfold pc_b in B1. unfold connect_closing. destruct (k_pc k); try discriminate. eauto.
  - unfold last_connection. destruct (k_conns k) as [|st old]; [discriminate|]. apply andb_prop in B2 as [B2 B3].
    exists st. split; [eauto|]. split; [now apply stuck_check|]. unfold tcp_closed, lost_b in *. destruct (p_lost st); [discriminate|]. discriminate.
Qed.

(* Before the connection opens, if nobody uses it, nothing can close it. *)
Section Idle.
Context {E : Type} (X : ext_ops E) (cfg : config) (ccfg : client_config E) (ue : uri_env).
Implicit Types (st : conn E) (k : connecting E).
Definition idle st : Prop := p_C st = CNone /\ p_T st = TNone /\ p_K st = KNone /\ p_users st = [].
Definition waiting k : bool := match k_pc k with AHandshake | ACancelled InHandshake => true | _ => false end.
Definition idle_inv k : Prop := waiting k = true -> match k_conns k with st :: _ => idle st | [] => True end.
Lemma idle_step st l st' : own_step l = true -> by_user l = false -> step X cfg st l = Some st' -> idle st ->
  idle st' /\ (l = LEof \/ (exists o c, l = LLost o c) \/ p_lost st' = p_lost st /\ p_closing st' = p_closing st /\ p_aborted st' = p_aborted st).
Proof.
  intros O U H (A & B & C & D). unfold idle.
  assert (G : idle st) by (repeat split; assumption).
  destruct l; try discriminate; cbn [step] in H.
  - destruct (r_eof _); [discriminate|]. apply some_inj in H as <-. split; [exact G|]. right. right. repeat split.
  - destruct (r_eof _); [discriminate|]. apply some_inj in H as <-. split; [exact G|]. now left.
  - destruct (p_state st); try discriminate; apply some_inj in H as <-;
      (split; [|right; left; eauto]); destruct (connection_lost_shape st o closing) as (? & ? & ? & ? & ? & ->); exact G.
  - apply some_inj in H as <-. split; [exact G|]. right. right. repeat split.
  - unfold step_T in H. now rewrite B in H.
  - unfold step_K in H. rewrite C in H. destruct a; discriminate.
  - unfold step_C in H. rewrite A in H. destruct a; discriminate.
  - unfold step_user in H. rewrite D in H. destruct i; discriminate.
Qed.
Lemma k_fail_not_waiting k st old f : Pre st -> waiting (k_fail X cfg k st old f) = false.
Proof. intros P. unfold k_fail. destruct (fail_1006 X cfg st P) as (st' & -> & _). reflexivity. Qed.
Lemma idle_inv_step k l k' : KInv X cfg k -> (forall j x, l = KConn j x -> by_user x = false) ->
  kstep X cfg ccfg ue k l = Some k' -> idle_inv k -> idle_inv k'.
Proof.
  intros I U H N. unfold idle_inv in *.
  destruct l as [o|j l|o| | |]; cbn [kstep] in H.
  - destruct (k_pc k) eqn:Hp; try discriminate. apply some_inj in H as <-. unfold k_create.
    destruct (create_connection _) as [[p tls]|e]; [|discriminate]. destruct o; [discriminate|]. intros _. cbn. repeat split.
  - destruct (own_step l) eqn:O; [|discriminate]. destruct (nth_error (k_conns k) j) as [st|] eqn:J; [|discriminate].
    destruct (step X cfg st l) as [st'|] eqn:S; [|discriminate]. apply some_inj in H as <-. intros W. specialize (N W).
    cbn [k_conns]. destruct (k_conns k) as [|c old]; [destruct j; discriminate|].
    destruct j as [|j]; cbn [replace nth_error] in *; [|exact N]. apply some_inj in J as ->.
    exact (proj1 (idle_step st l st' O (U _ _ eq_refl) S N)).
  - destruct (k_pc k) eqn:Hp; try discriminate. destruct I as (F & L & P & B). unfold k_handshake in H.
    destruct (k_conns k) as [|c old]; [discriminate|]. rewrite Hp in P. cbn [last_ok] in P. apply unopened_Pre in P.
    assert (J : forall st f, Pre st -> Some (k_fail X cfg k st old f) = Some k' -> waiting k' = false).
    { intros st f Q W. apply some_inj in W as <-. now apply k_fail_not_waiting. }
    assert (Q : waiting k' = false); [|rewrite Q; discriminate].
    destruct o as [key data|e]; [|exact (J _ _ P H)]. destruct (read_http_response data) as [[status h]|e]; [|exact (J _ _ P H)].
    destruct (legacy_client_handshake ccfg key status h) as [exts sub|u|e]; try exact (J _ _ P H). cbv zeta in H.
    destruct (p_state (set_exts exts c)) eqn:S; try exact (J (set_exts exts c) _ P H).
    destruct (p_C (set_exts exts c)) eqn:PC; try exact (J (set_exts exts c) _ P H).
    now apply some_inj in H as <-.
  - unfold k_resume in H. destruct (k_conns k) as [|c old] eqn:Kc; [discriminate|].
    assert (Q : waiting k' = false); [|rewrite Q; discriminate].
    destruct (k_pc k) as [| |f i| | | |i|]; try discriminate;
      destruct (nth_error (p_users c) i) as [[[| | | | | | | | | | | | | | | |r] x]|]; try discriminate.
    + destruct r; try (apply some_inj in H as <-; reflexivity);
        (destruct f as [u|e]; [destruct (handle_redirect ue (k_state k) u)|]; apply some_inj in H as <-; try reflexivity;
         unfold k_next; now destruct (k_left k)).
    + now apply some_inj in H as <-.
  - unfold waiting in *. destruct (k_pc k) eqn:Hp; try discriminate; apply some_inj in H as <-; [discriminate|]. exact N.
  - unfold k_exit in H. destruct (k_conns k); [discriminate|]. destruct (k_pc k); try discriminate. apply some_inj in H as <-. discriminate.
Qed.
Lemma idle_inv_exec ls : forall k k', hands_off ls -> KInv X cfg k -> kexec X cfg ccfg ue k ls = Some k' -> idle_inv k -> idle_inv k'.
Proof.
  induction ls as [|l ls IH]; intros k k' U I H N; cbn [kexec] in H; [now apply some_inj in H as <-|].
  destruct (kstep X cfg ccfg ue k l) as [k1|] eqn:S; [|discriminate].
  apply (IH k1); [intros j x Q; apply (U j); now right|exact (kstep_inv X cfg ccfg ue _ _ _ I S)|exact H|].
  apply (idle_inv_step k l); [exact I| |exact S|exact N]. intros j x ->. apply (U j). now left.
Qed.
Lemma idle_forever ls : forall k k', k_pc k = ACancelled InHandshake -> hands_off ls -> ~ server_closes ls ->
  kexec X cfg ccfg ue k ls = Some k' -> forall st old, k_conns k = st :: old -> idle st ->
  exists st' old', k_conns k' = st' :: old' /\ idle st' /\ p_lost st' = p_lost st /\ p_closing st' = p_closing st /\ p_aborted st' = p_aborted st.
Proof.
  induction ls as [|l ls IH]; intros k k' Hp U Sc H st old Kc N; cbn [kexec] in H.
  { apply some_inj in H as <-. exists st, old. split; [exact Kc|]. split; [exact N|]. repeat split. }
  destruct (kstep X cfg ccfg ue k l) as [k1|] eqn:S; [|discriminate].
  destruct l as [o|j l|o| | |]; cbn [kstep] in S; unfold k_resume, k_exit in S; rewrite ?Hp, ?Kc in S; try discriminate.
  destruct (own_step l) eqn:O; [|discriminate]. destruct (nth_error (st :: old) j) as [st0|] eqn:J; [|discriminate].
  destruct (step X cfg st0 l) as [st1|] eqn:T; [|discriminate]. apply some_inj in S as <-.
  assert (U' : hands_off ls) by (intros j' x Q; apply (U j'); now right).
  assert (Sc' : ~ server_closes ls).
  { intros (j' & [Q|(o & c & Q)]); apply Sc; exists j'; [left; now right|right; exists o, c; now right]. }
  destruct j as [|j]; cbn [nth_error replace] in *.
  - apply some_inj in J as ->. destruct (idle_step st0 l st1 O (U 0%nat l (or_introl eq_refl)) T N) as [N1 [-> |[(o & c & ->)|(A & B & C)]]].
    + destruct Sc. exists 0%nat. left. now left.
    + destruct Sc. exists 0%nat. right. exists o, c. now left.
    + rewrite <- A, <- B, <- C. refine (IH _ k' _ U' Sc' H st1 old _ N1); reflexivity.
  - refine (IH _ k' _ U' Sc' H st _ _ N); reflexivity.
Qed.
End Idle.

(* When connect() is cancelled during the opening handshake, for example because of a timeout, and the
   server keeps the TCP connection open, it isn't closed, now or later. *)
Theorem C81_cancelled_handshake_refuted : forall E (X : ext_ops E) cfg ccfg ue uri args ls k ls' k' st,
  connects X cfg ccfg ue uri args ls k -> hands_off ls -> connect_cancelled k InHandshake ->
  last_connection k st -> ~ tcp_closed st -> ~ tcp_closing st ->
  kexec X cfg ccfg ue k ls' = Some k' -> hands_off ls' -> ~ server_closes ls' ->
  exists st', last_connection k' st' /\ ~ tcp_closed st' /\ ~ tcp_closing st' /\ ~ closing_task_started st'.
Proof.
  intros E X cfg ccfg ue uri args ls k ls' k' st (cs & _ & H) U Hp (old & Kc) C1 C2 H' U' Sc.
  pose proof (idle_inv_exec X cfg ccfg ue ls _ _ U (kinitial_inv X cfg cs) H) as N.
  unfold connect_cancelled in Hp. unfold idle_inv, waiting in N. rewrite Hp, Kc in N.
  assert (I : idle st) by (apply N; [discriminate|reflexivity]).
  destruct (idle_forever X cfg ccfg ue ls' k k' Hp U' Sc H' st old Kc I) as (st' & old' & A & I' & B & C & D).
  exists st'. split; [now exists old'|]. unfold tcp_closed, tcp_closing, closing_task_started. rewrite B, C, D.
  split; [exact C1|]. split; [exact C2|]. destruct I' as (Q & _). rewrite Q. intros Z. now apply Z.
Qed.

Definition no_labels (P : klabel -> bool) (ls : list klabel) : bool := negb (existsb P ls).
Lemma hands_off_b ls : no_labels (fun l => match l with KConn _ l => by_user l | _ => false end) ls = true -> hands_off ls.
Proof.
  unfold no_labels. intros H j l Q. apply negb_true_iff in H. destruct (by_user l) eqn:B; [|reflexivity].
  assert (Z : existsb (fun l => match l with KConn _ l => by_user l | _ => false end) ls = true); [|congruence].
  apply existsb_exists. exists (KConn j l). now split.
Qed.
Lemma server_stays_b ls : no_labels (fun l => match l with KConn _ LEof | KConn _ (LLost _ _) => true | _ => false end) ls = true -> ~ server_closes ls.
Proof.
  unfold no_labels. intros H (j & Q). apply negb_true_iff in H.
  assert (Z : existsb (fun l => match l with KConn _ LEof | KConn _ (LLost _ _) => true | _ => false end) ls = true); [|congruence].
  apply existsb_exists. destruct Q as [Q|(o & c & Q)]; eexists; (split; [exact Q|reflexivity]).
Qed.
(* A timeout of 3 seconds during the second handshake; then a minute passes, and the server sends data. *)
Definition ex_timeout : list klabel := ex_follow ++ [KConn 0 (LTick 3000); KCancel].
Definition ex_minute : list klabel := [KConn 0 (LTick 60000); KConn 0 (LData (b "HTTP/1.1 101"))].
Example C81_cancelled_handshake_applies :
  (exists k, ex_connects ex_timeout k /\
     pc_b (fun pc => match pc with ACancelled InHandshake => true | _ => false end) k && bools_eqb (losts k) [false; true] &&
     match k_conns k with st :: _ => negb (p_closing st) && match p_aborted st with None => true | _ => false end | [] => false end = true) /\
  hands_off ex_timeout /\ hands_off ex_minute /\ ~ server_closes ex_minute /\
  (exists k, ex_connects (ex_timeout ++ ex_minute) k /\ bools_eqb (losts k) [false; true] = true).
Proof.
  split; [apply by_connecting; vm_compute; reflexivity|].
  split; [apply hands_off_b; reflexivity|]. split; [apply hands_off_b; reflexivity|]. split; [apply server_stays_b; reflexivity|].
  apply by_connecting. vm_compute. reflexivity.
Qed.

(* At any time, the TCP connections made before the last one are closed. *)
Theorem C81_previous_connections_closed : forall E (X : ext_ops E) cfg ccfg ue uri args ls k st older,
  connects X cfg ccfg ue uri args ls k -> connections k = st :: older -> Forall tcp_closed older.
Proof.
  intros E X cfg ccfg ue uri args ls k st older H Kc. apply connects_inv in H as (_ & L & _). unfold connections in Kc. now rewrite Kc in L.
Qed.
(* connect() makes at most ten TCP connections. *)
Theorem C81_at_most_ten_connections : forall E (X : ext_ops E) cfg ccfg ue uri args ls k,
  connects X cfg ccfg ue uri args ls k -> (length (connections k) <= 10)%nat.
Proof. intros E X cfg ccfg ue uri args ls k H. apply connects_inv in H as (_ & _ & _ & B). unfold connections. lia. Qed.
(* When connect() returns, the last connection is open. *)
Theorem C81_returns_open : forall E (X : ext_ops E) cfg ccfg ue uri args ls k l k',
  connects X cfg ccfg ue uri args ls k -> ~ connect_returned k -> kstep X cfg ccfg ue k l = Some k' -> connect_returned k' ->
  exists st, last_connection k' st /\ p_state st = Open.
Proof.
  intros E X cfg ccfg ue uri args ls k l k' H N S R. apply connects_inv in H as (F & L & P & B). unfold connect_returned in *.
  destruct l as [o|j l|o| | |]; cbn [kstep] in S.
  - destruct (k_pc k); try discriminate. apply some_inj in S as <-. unfold k_create in R.
    destruct (create_connection _) as [[p tls]|e]; [|contradiction]. destruct o; contradiction.
  - destruct (own_step l); [|discriminate]. destruct (nth_error (k_conns k) j) as [st|]; [|discriminate].
    destruct (step X cfg st l) as [st'|]; [|discriminate]. apply some_inj in S as <-. contradiction.
  - destruct (k_pc k) eqn:Hp; try discriminate. unfold k_handshake in S. destruct (k_conns k) as [|c old]; [discriminate|].
    cbn [last_ok] in P. apply unopened_Pre in P.
    assert (J : forall st f, Pre st -> Some (k_fail X cfg k st old f) = Some k' -> False).
    { intros st f Q W. apply some_inj in W as <-. unfold k_fail in R. destruct (fail_1006 X cfg st Q) as (st' & Z & _). now rewrite Z in R. }
    destruct o as [key data|e]; [|destruct (J _ _ P S)]. destruct (read_http_response data) as [[status h]|e]; [|destruct (J _ _ P S)].
    destruct (legacy_client_handshake ccfg key status h) as [exts sub|u|e]; try destruct (J _ _ P S). cbv zeta in S.
    destruct (p_state (set_exts exts c)) eqn:St; try destruct (J (set_exts exts c) _ P S).
    destruct (p_C (set_exts exts c)) eqn:PC; try destruct (J (set_exts exts c) _ P S).
    apply some_inj in S as <-. eexists. split; [eexists; reflexivity|]. reflexivity.
  - unfold k_resume in S. destruct (k_conns k) as [|c old]; [discriminate|].
    destruct (k_pc k) as [| |f i| | | |i|]; try discriminate; try (now destruct N).
    destruct (nth_error (p_users c) i) as [[[| | | | | | | | | | | | | | | |r] x]|]; try discriminate.
    destruct r; try (apply some_inj in S as <-; contradiction);
      (destruct f as [u|e]; [destruct (handle_redirect ue (k_state k) u)|]; apply some_inj in S as <-; try contradiction;
       unfold k_next in R; now destruct (k_left k)).
  - destruct (k_pc k); try discriminate; apply some_inj in S as <-; contradiction.
  - unfold k_exit in S. destruct (k_conns k); [discriminate|]. destruct (k_pc k); try discriminate. now destruct N.
Qed.
(* When the block of async with connect(...) was left, and the connection was closed without an
   exception, all the TCP connections are closed or aborted; the connection isn't open, unless
   close_timeout is 0 (C69). *)
Theorem C81_async_with_closes : forall E (X : ext_ops E) cfg ccfg ue uri args ls k,
  connects X cfg ccfg ue uri args ls k -> block_left k ->
  exists st older, connections k = st :: older /\ (tcp_closed st \/ p_aborted st <> None) /\ Forall tcp_closed older /\
    (c_close_timeout cfg <> Some 0 -> p_state st <> Open).
Proof.
  intros E X cfg ccfg ue uri args ls k H Q. apply connects_inv in H as (F & L & P & B). unfold block_left, connections in *.
  rewrite Q in P. destruct (k_conns k) as [|c old]; [discriminate|]. cbn [last_ok tl] in *. destruct P as [_ P].
  destruct (P eq_refl) as [P1 P2]. exists c, old. split; [reflexivity|]. split; [exact P1|]. split; [exact L|exact P2].
Qed.

(* A redirect, a connection that opens, and the end of the block: the peer answers the close frame. *)
Definition ex_leave : list klabel :=
  [KExit; KConn 0 (LUser 0 Go); KConn 0 (LUser 0 DrainOk); KConn 0 (LData (bs [136; 2; 3; 232])); KConn 0 (LT Go); KConn 0 (LK Go);
   KConn 0 (LC Go); KConn 0 (LC Go); KConn 0 (LLost None true); KConn 0 (LC Go); KConn 0 (LUser 0 Go); KConn 0 (LUser 0 Go); KResume].
Example C81_returns_open_applies :
  (exists k, ex_connects ex_follow k /\ pc_b (fun pc => match pc with AHandshake => true | _ => false end) k && bools_eqb (losts k) [false; true] = true) /\
  (exists k, ex_connects (ex_follow ++ [KHandshake ex_switch]) k /\
     pc_b (fun pc => match pc with AReturned => true | _ => false end) k && bools_eqb (losts k) [false; true] = true).
Proof. split; apply by_connecting; vm_compute; reflexivity. Qed.
Example C81_async_with_applies :
  exists k, ex_connects (ex_follow ++ [KHandshake ex_switch] ++ ex_leave) k /\
    pc_b (fun pc => match pc with AExited RNone => true | _ => false end) k && bools_eqb (losts k) [true; true] = true.
Proof. apply by_connecting. vm_compute. reflexivity. Qed.

(* ---- C82 ---- *)

(* Every TCP connection made by connect() is the result of an execution of a connection, so that the
   theorems about connections apply to it. *)
Theorem C82_client_connection : forall E (X : ext_ops E) cfg ccfg ue uri args ls k st,
  connects X cfg ccfg ue uri args ls k -> In st (connections k) -> exists exts ls', execution X cfg exts ls' st.
Proof.
  intros E X cfg ccfg ue uri args ls k st H In1. apply connects_inv in H as (F & _). rewrite Forall_forall in F. exact (F st In1).
Qed.
(* The attempts of connect() are those of the function await_connect, on which C52, C53 and C73 are
   stated, for some behaviour of the servers; and it ends in the same way. *)
Theorem C82_attempts : forall E (X : ext_ops E) cfg ccfg ue uri args ls k,
  connects X cfg ccfg ue uri args ls k ->
  (exists w rest r, await_connect ue w uri args = (k_attempts k ++ rest, r)) /\
  (connect_returned k -> exists w a, await_connect ue w uri args = (k_attempts k, Connected a)) /\
  (forall e, connect_raised k e -> exists w, await_connect ue w uri args = (k_attempts k, Failed e)).
Proof.
  intros E X cfg ccfg ue uri args ls k (cs & Hi & H).
  destruct (kexec_agrees X cfg ccfg ue cs ls _ _ [] (kinitial_inv X cfg cs) (kinitial_agrees ue cs) H) as [ans A].
  unfold await_connect. rewrite Hi. split; [exact (agrees_attempts ue cs k ans A)|]. destruct (obeys_exists ans) as [w O].
  unfold agrees in A. unfold connect_returned, connect_raised. split.
  - intros R. destruct (k_pc k); try contradiction; (destruct (A w O) as [a Q]; exists w, a; exact Q).
  - intros e Q. rewrite Q in A. exists w. exact (A w O).
Qed.
Theorem C82_never_downgrades : forall E (X : ext_ops E) cfg ccfg ue uri args ls k before a between a' after,
  connects X cfg ccfg ue uri args ls k ->
  k_attempts k = before ++ [a] ++ between ++ [a'] ++ after ->
  uri_secure (at_uri a) = true -> uri_secure (at_uri a') = true.
Proof.
  intros E X cfg ccfg ue uri args ls k before a between a' after H K Sa.
  destruct (C82_attempts E X cfg ccfg ue uri args ls k H) as ((w & rest & r & Q) & _).
  apply (C52_never_downgrades ue w uri args before a between a' (after ++ rest)); [|exact Sa].
  rewrite Q, K. cbn [fst]. rewrite <- !app_assoc. reflexivity.
Qed.
Example C82_applies :
  exists k, ex_connects (ex_follow ++ [KHandshake ex_switch]) k /\
    match k_attempts k with
    | [a; a'] => negb (uri_secure (at_uri a)) && uri_secure (at_uri a') && str_eqb (uri_host (at_uri a')) (s "two.example")
    | _ => false
    end = true.
Proof. apply by_connecting. vm_compute. reflexivity. Qed.

Print Assumptions C81_connections_closed_partial.
Print Assumptions C81_closing_ends.
Print Assumptions C81_cancelled_handshake_refuted.
Print Assumptions C81_previous_connections_closed.
Print Assumptions C81_at_most_ten_connections.
Print Assumptions C81_returns_open.
Print Assumptions C81_async_with_closes.
Print Assumptions C82_client_connection.
Print Assumptions C82_attempts.
Print Assumptions C82_never_downgrades.
