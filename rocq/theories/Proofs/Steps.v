(* Every history of a connection, as a sequence of atomic steps: what each of them does to
   the attributes of the connection, what it writes and what it delivers.  The invariants
   of Properties/Connection*.v are proved by induction on these sequences. *)
From Verif Require Import Base.Prelude Base.PreludeFacts Model.Utils Model.Streams Model.Frames
  Model.Http11 Model.Connection Spec.Rfc6455 Spec.FrameSpec Spec.Messages Spec.History
  Proofs.StreamsFacts Proofs.FramesFacts Proofs.ParserFacts Proofs.AtomicFacts Proofs.ConnectionFacts.

(* the parser is running, is failing with an exception, or is finished *)
Inductive phase : Type := Alive | Failing (e : exn) | Dead (e : option exn).
Definition settled (p : phase) : Prop := match p with Failing _ => False | _ => True end.

Definition data_call (k : call) : option (opcode * bytes * bool) :=
  match k with
  | CSendContinuation data fin => Some (CONT, data, fin)
  | CSendText data fin => Some (TEXT, data, fin)
  | CSendBinary data fin => Some (BINARY, data, fin)
  | _ => None
  end.
Definition ctrl_call (k : call) : option (opcode * bytes) :=
  match k with CSendPing data => Some (PING, data) | CSendPong data => Some (PONG, data) | _ => None end.

Definition close_payload (code : option Z) (reason : str) : result bytes :=
  match code with
  | None => match reason with [] => Ok [] | _ => Raise ValueError end
  | Some x => serialize_close x reason
  end.

Section Steps.
Context {E : Type} (X : ext_ops E).
Implicit Type c : conn E.

Record abs : Type := Abs {
  a_c : conn E; a_is : list item; a_ev : list event; a_ph : phase }.

(* the attributes other than what's waiting to be drained *)
Definition core c : conn E := set_writes (set_events c []) [].

Definition sentc c (exts : list E) : conn E :=
  let c := set_exts c exts in if is_client (c_side c) then set_draws c (S (c_draws c)) else c.

Definition may_send c (o : opcode) : Prop :=
  match o with CONT => c_expect_cont c = true | _ => c_expect_cont c = false end.

(* f can't be written, for one of these reasons *)
Definition unsendable c (f : frame) (exts : list E) (e : exn) : Prop :=
  (c_state c <> OPEN /\ exts = c_exts c /\
   e = InvalidState (s "cannot write to a WebSocket in the " ++ state_name (c_state c) ++ s " state")) \/
  (c_state c = OPEN /\ exts = c_exts c /\ check f = Raise e) \/
  (c_state c = OPEN /\ check f = Ok tt /\ encode_in_order X (c_exts c) f = (exts, Raise e)) \/
  (c_state c = OPEN /\ check f = Ok tt /\ e = StructError /\
   exists f', encode_in_order X (c_exts c) f = (exts, Ok f') /\ (2 ^ 64 <= lenN (f_data f'))%N).

(* f can be written; f' is what is written *)
Definition sendable c (f : frame) (exts : list E) (f' : frame) : Prop :=
  c_state c = OPEN /\ check f = Ok tt /\ encode_in_order X (c_exts c) f = (exts, Ok f') /\
  (lenN (f_data f') < 2 ^ 64)%N.

Definition eof_items c : list item := if c_eof_sent c then [] else [Eof].

(* start_closing *)
Definition closing c : conn E :=
  let c := set_state c CLOSING in if is_server (c_side c) then set_eof_sent c true else c.
Definition closing_items c : list item := if is_server (c_side c) then eof_items c else [].

(* the frame f is received *)
Definition received c (f : frame) (exts : list E) : Prop :=
  exists f0, fits (next_max_size c) (length (f_data f0)) /\
    decode_reversed X (c_exts c) f0 (next_max_size c) = (exts, Ok f) /\ check f = Ok tt.

(* a frame isn't acceptable *)
Definition unreadable c (exts : list E) (e : exn) : Prop :=
  (wire_exn (next_max_size c) e /\ exts = c_exts c) \/
  exists f0, fits (next_max_size c) (length (f_data f0)) /\
    (decode_reversed X (c_exts c) f0 (next_max_size c) = (exts, Raise e) \/
     exists f, decode_reversed X (c_exts c) f0 (next_max_size c) = (exts, Ok f) /\ check f = Raise e).

(* the size of the message in progress after receiving a data frame *)
Definition next_cur_size (o : option Z) (f : frame) : option Z :=
  if f_fin f then None
  else Some (match o with Some n => n + lenZ (f_data f) | None => lenZ (f_data f) end)%Z.

Definition in_order c (f : frame) : Prop :=
  match f_opcode f with
  | TEXT | BINARY => c_cur_size c = None
  | CONT => exists n, c_cur_size c = Some n
  | _ => False
  end.

Variable K : call -> Prop.

Inductive astep : abs -> abs -> Prop :=
(* sending *)
| s_data k o data fin c exts f' is ev ph :
    K k -> data_call k = Some (o, data, fin) -> settled ph -> may_send c o ->
    sendable c (mkframe fin o data) exts f' ->
    astep (Abs c is ev ph)
          (Abs (sentc (set_expect_cont c (negb fin)) exts) (is ++ [Sent f' (conn_key c)]) ev ph)
| s_data_fails k o data fin c exts e is ev ph :
    K k -> data_call k = Some (o, data, fin) -> settled ph -> may_send c o ->
    unsendable c (mkframe fin o data) exts e ->
    astep (Abs c is ev ph) (Abs (set_exts (set_expect_cont c (negb fin)) exts) is ev ph)
| s_ctrl k o data c exts f' is ev ph :
    K k -> ctrl_call k = Some (o, data) -> settled ph ->
    sendable c (mkframe true o data) exts f' ->
    astep (Abs c is ev ph) (Abs (sentc c exts) (is ++ [Sent f' (conn_key c)]) ev ph)
| s_ctrl_fails k o data c exts e is ev ph :
    K k -> ctrl_call k = Some (o, data) -> settled ph ->
    unsendable c (mkframe true o data) exts e ->
    astep (Abs c is ev ph) (Abs (set_exts c exts) is ev ph)
| s_close code reason data c exts f' is ev ph :
    K (CSendClose code reason) -> settled ph -> c_expect_cont c = false ->
    close_payload code reason = Ok data ->
    sendable c (mkframe true CLOSE data) exts f' ->
    astep (Abs c is ev ph)
          (Abs (closing (sentc c exts)) (is ++ [Sent f' (conn_key c)] ++ closing_items c) ev ph)
| s_close_fails code reason data c exts e is ev ph :
    K (CSendClose code reason) -> settled ph -> c_expect_cont c = false ->
    close_payload code reason = Ok data ->
    unsendable c (mkframe true CLOSE data) exts e ->
    astep (Abs c is ev ph) (Abs (set_exts c exts) is ev ph)
(* receiving the end of the stream *)
| s_eof c is ev :
    K CReceiveEof -> c_close_rcvd c = true -> c_eof_sent c = false ->
    astep (Abs c is ev Alive) (Abs (set_eof_sent c true) (is ++ [Eof]) ev Alive)
| s_eof_fails c is ev :
    K CReceiveEof -> c_close_rcvd c = false ->
    astep (Abs c is ev Alive) (Abs c is ev (Failing EOFError))
(* receiving a frame *)
| s_unreadable c exts e is ev :
    unreadable c exts e -> (e = EOFError -> K CReceiveEof \/ exists f0 ex, decode_reversed X (c_exts c) f0
                              (next_max_size c) = (ex, Raise EOFError)) ->
    astep (Abs c is ev Alive) (Abs (set_exts c exts) is ev (Failing e))
| s_recv_data f exts c is ev :
    received c f exts -> c_close_rcvd c = false -> in_order c f ->
    astep (Abs c is ev Alive)
          (Abs (set_cur_size (set_exts c exts) (next_cur_size (c_cur_size c) f)) is
               (ev ++ [EvFrame f]) Alive)
| s_recv_data_fails f exts c is ev msg :
    received c f exts -> is_data f -> (c_close_rcvd c = true \/ ~ in_order c f) ->
    In msg [s "data frame after close frame"; s "expected a continuation frame";
            s "unexpected continuation frame"] ->
    astep (Abs c is ev Alive) (Abs (set_exts c exts) is ev (Failing (ProtocolError msg)))
| s_recv_pong f exts c is ev :
    received c f exts -> (f_opcode f = PONG \/ f_opcode f = PING /\ c_close_rcvd c = true) ->
    astep (Abs c is ev Alive) (Abs (set_exts c exts) is (ev ++ [EvFrame f]) Alive)
| s_recv_ping f exts exts' f' c is ev :
    received c f exts -> f_opcode f = PING -> c_close_rcvd c = false ->
    sendable (set_exts c exts) (mkframe true PONG (f_data f)) exts' f' ->
    astep (Abs c is ev Alive)
          (Abs (sentc (set_exts c exts) exts') (is ++ [Sent f' (conn_key c)]) (ev ++ [EvFrame f]) Alive)
| s_recv_ping_fails f exts exts' e c is ev :
    received c f exts -> f_opcode f = PING -> c_close_rcvd c = false ->
    unsendable (set_exts c exts) (mkframe true PONG (f_data f)) exts' e ->
    astep (Abs c is ev Alive) (Abs (set_exts c exts') is ev (Failing e))
| s_recv_close_bad f exts c is ev e :
    received c f exts -> f_opcode f = CLOSE -> parse_close (f_data f) = Raise e ->
    astep (Abs c is ev Alive) (Abs (set_close_rcvd (set_exts c exts) true) is ev (Failing e))
| s_recv_close_incomplete f exts c is ev code reason n :
    received c f exts -> f_opcode f = CLOSE -> parse_close (f_data f) = Ok (code, reason) ->
    c_cur_size c = Some n ->
    astep (Abs c is ev Alive)
          (Abs (set_close (set_close_rcvd (set_exts c exts) true) code reason) is ev
               (Failing (ProtocolError (s "incomplete fragmented message"))))
| s_recv_close_quiet f exts c is ev code reason :
    received c f exts -> f_opcode f = CLOSE -> parse_close (f_data f) = Ok (code, reason) ->
    c_cur_size c = None -> c_state c <> OPEN ->
    astep (Abs c is ev Alive)
          (Abs (set_close (set_close_rcvd (set_exts c exts) true) code reason) is
               (ev ++ [EvFrame f]) Alive)
| s_recv_close f exts exts' f' c is ev code reason :
    received c f exts -> f_opcode f = CLOSE -> parse_close (f_data f) = Ok (code, reason) ->
    c_cur_size c = None -> (is_server (c_side c) = true -> c_eof_sent c = false) ->
    sendable (set_close (set_close_rcvd (set_exts c exts) true) code reason)
             (mkframe true CLOSE (f_data f)) exts' f' ->
    astep (Abs c is ev Alive)
          (Abs (closing (sentc (set_close (set_close_rcvd (set_exts c exts) true) code reason) exts'))
               (is ++ [Sent f' (conn_key c)] ++ closing_items c) (ev ++ [EvFrame f]) Alive)
| s_recv_close_fails f exts exts' e c is ev code reason :
    received c f exts -> f_opcode f = CLOSE -> parse_close (f_data f) = Ok (code, reason) ->
    c_cur_size c = None -> c_state c = OPEN ->
    unsendable (set_close (set_close_rcvd (set_exts c exts) true) code reason)
             (mkframe true CLOSE (f_data f)) exts' e ->
    astep (Abs c is ev Alive)
          (Abs (set_exts (set_close (set_close_rcvd (set_exts c exts) true) code reason) exts') is ev
               (Failing e))
| s_recv_close_eof f exts exts' f' c is ev code reason :
    received c f exts -> f_opcode f = CLOSE -> parse_close (f_data f) = Ok (code, reason) ->
    c_cur_size c = None -> is_server (c_side c) = true -> c_eof_sent c = true ->
    sendable (set_close (set_close_rcvd (set_exts c exts) true) code reason)
             (mkframe true CLOSE (f_data f)) exts' f' ->
    astep (Abs c is ev Alive)
          (Abs (closing (sentc (set_close (set_close_rcvd (set_exts c exts) true) code reason) exts'))
               (is ++ [Sent f' (conn_key c)]) ev (Failing AssertionError))
(* failing the connection *)
| s_fail_close e c is ev data exts f' :
    fst (close_code_for e) <> 1006%Z ->
    serialize_close (fst (close_code_for e)) (snd (close_code_for e)) = Ok data ->
    sendable c (mkframe true CLOSE data) exts f' ->
    astep (Abs c is ev (Failing e))
          (Abs (set_eof_sent (set_state (sentc c exts) CLOSING) true)
               (is ++ [Sent f' (conn_key c)] ++ eof_items c) ev (Dead (Some e)))
| s_fail_quiet e c is ev :
    fst (close_code_for e) = 1006%Z \/ c_state c <> OPEN ->
    astep (Abs c is ev (Failing e))
          (Abs (set_eof_sent c true) (is ++ eof_items c) ev (Dead (Some e)))
| s_fail_raises e c is ev exts :
    fst (close_code_for e) <> 1006%Z -> c_state c = OPEN ->
    (exts = c_exts c /\ (exists e', serialize_close (fst (close_code_for e)) (snd (close_code_for e)) = Raise e') \/
     exists data e', serialize_close (fst (close_code_for e)) (snd (close_code_for e)) = Ok data /\
       unsendable c (mkframe true CLOSE data) exts e') ->
    astep (Abs c is ev (Failing e)) (Abs (set_exts c exts) is ev (Dead None)).

Inductive asteps (a : abs) : abs -> Prop :=
| as_refl : asteps a a
| as_step x y : asteps a x -> astep x y -> asteps a y.

Definition api (f : @meth E) : Prop := exists k, K k /\ meth_of X k = Some f.

(* ---- every history is a sequence of steps ---- *)

Lemma core_eta c : set_exts c (c_exts c) = c.
Proof. destruct c; reflexivity. Qed.

Lemma wire_fails_iff f mask key e : length key = 4 -> wire f mask key = Raise e ->
  e = StructError /\ (2 ^ 64 <= lenN (f_data f))%N.
Proof.
  intros Hk W. destruct (N.lt_ge_cases (lenN (f_data f)) (2 ^ 64)) as [L|L].
  - destruct (wire_succeeds f mask key Hk L). congruence.
  - split; [|exact L]. unfold wire in W.
    destruct (N.ltb_spec (lenN (f_data f)) 126); [lia|]. destruct (N.ltb_spec (lenN (f_data f)) 65536); [lia|].
    destruct (N.ltb_spec (lenN (f_data f)) (2 ^ 64)); [lia|]. cbn [rbind] in W. congruence.
Qed.

Lemma send_frame_step f c :
  (exists exts e, send_frame X f c = (set_exts c exts, Raise e) /\ unsendable c f exts e) \/
  (exists f' exts w, send_frame X f c = (after_send c exts w, Ok tt) /\ sendable c f exts f' /\
     minimal_layout (on_wire f' (conn_key c)) w).
Proof.
  unfold send_frame. destruct (c_state c) eqn:St;
    try (left; exists (c_exts c); eexists; split; [rewrite core_eta; reflexivity|];
         left; rewrite St; split; [discriminate|]; split; reflexivity).
  unfold serialize. destruct (check f) as [[]|e] eqn:C.
  2: { left. exists (c_exts c), e. split; [reflexivity|]. right. left. auto. }
  destruct (encode_in_order X (c_exts c) f) as [exts [f'|e]] eqn:En.
  2: { left. exists exts, e. split; [reflexivity|]. right. right. left. auto. }
  destruct (wire f' (is_client (c_side c)) (key_bytes (c_keys c (c_draws c)))) as [w|e] eqn:W.
  2: { left. exists exts, e. split; [reflexivity|]. right. right. right.
       apply wire_fails_iff in W as [-> L]; [|reflexivity]. split; [auto|]. split; [auto|]. split; [auto|]. eauto. }
  right. exists f', exts, w.
  apply wire_layout in W; [|reflexivity].
  replace (key_opt (is_client (c_side c)) (key_bytes (c_keys c (c_draws c)))) with (conn_key c) in W
    by (unfold conn_key, key_opt; destruct (is_client (c_side c)); reflexivity).
  split; [|split; [|exact W]].
  - unfold after_send. cbn [c_side set_exts]. destruct (is_client (c_side c)); reflexivity.
  - repeat split; auto. destruct W as (ext & (b0 & b1 & k & body & L) & _). decompose [and] L.
    eapply length_field_lt. eassumption.
Qed.

Definition represents (a0 : abs) (ph : phase) (pe : list event) (pw : list bytes) c : Prop :=
  exists is, written (pw ++ c_writes c) is /\
    asteps a0 (Abs (core c) is (pe ++ c_events c) ph).

Lemma written_app ws is w i : written ws is -> item_bytes w i -> written (ws ++ [w]) (is ++ [i]).
Proof. intros H Hi. apply Forall2_app; [exact H|]. constructor; [exact Hi|constructor]. Qed.

Lemma core_after_send c exts w : core (after_send c exts w) = sentc (core c) exts.
Proof.
  unfold after_send, sentc, core. cbn [c_side set_exts set_writes set_events].
  destruct (is_client (c_side c)); reflexivity.
Qed.
Lemma after_send_writes c exts w : c_writes (after_send c exts w) = c_writes c ++ [w].
Proof. reflexivity. Qed.
Lemma after_send_events c exts w : c_events (after_send c exts w) = c_events c.
Proof. unfold after_send. cbn [c_side set_exts]. destruct (is_client (c_side c)); reflexivity. Qed.
Lemma after_send_side c exts w : c_side (after_send c exts w) = c_side c.
Proof. unfold after_send. cbn [c_side set_exts]. destruct (is_client (c_side c)); reflexivity. Qed.
Lemma after_send_eof c exts w : c_eof_sent (after_send c exts w) = c_eof_sent c.
Proof. unfold after_send. cbn [c_side set_exts]. destruct (is_client (c_side c)); reflexivity. Qed.
Lemma sentc_side c exts : c_side (sentc c exts) = c_side c.
Proof. unfold sentc. cbn [c_side set_exts]. destruct (is_client (c_side c)); reflexivity. Qed.

Lemma set_eof_same c : c_eof_sent c = true -> set_eof_sent c true = c.
Proof. destruct c. simpl. intros ->. reflexivity. Qed.

(* after a close frame has been written *)
Lemma start_closing_step c exts w pw is f' :
  written (pw ++ c_writes c) is -> minimal_layout (on_wire f' (conn_key c)) w ->
  let '(c', r) := start_closing (after_send c exts w) in
  (r = Ok tt /\ (is_server (c_side c) = true -> c_eof_sent c = false) \/
   r = Raise AssertionError /\ is_server (c_side c) = true /\ c_eof_sent c = true) /\
  core c' = closing (sentc (core c) exts) /\ c_events c' = c_events c /\
  written (pw ++ c_writes c') (is ++ [Sent f' (conn_key c)] ++ closing_items c).
Proof.
  intros W L. unfold start_closing, mseq, mupd, mret. cbn [c_side set_state].
  rewrite after_send_side. unfold closing, closing_items. cbn [c_side set_state].
  rewrite sentc_side. change (c_side (core c)) with (c_side c).
  assert (W1 : written (pw ++ c_writes (after_send c exts w)) (is ++ [Sent f' (conn_key c)])).
  { rewrite after_send_writes, app_assoc. apply written_app; assumption. }
  destruct (is_server (c_side c)) eqn:Sv.
  - unfold send_eof. cbn [c_eof_sent set_state]. rewrite after_send_eof. unfold eof_items.
    destruct (c_eof_sent c) eqn:Es.
    + split; [auto|]. split.
      * rewrite <- (core_after_send c exts w). rewrite set_eof_same; [reflexivity|].
        change (c_eof_sent (after_send c exts w) = true). now rewrite after_send_eof.
      * split; [apply after_send_events|]. exact W1.
    + split; [auto|]. split; [|split].
      * rewrite <- (core_after_send c exts w). reflexivity.
      * apply after_send_events.
      * cbn [c_writes set_writes set_state set_eof_sent].
        rewrite app_assoc. rewrite (app_assoc is). apply written_app; [exact W1|reflexivity].
  - split; [left; split; [reflexivity|discriminate]|]. split; [|split].
    + rewrite <- (core_after_send c exts w). reflexivity.
    + apply after_send_events.
    + rewrite app_nil_r. exact W1.
Qed.

Ltac step := eapply as_step; [eassumption|].

Lemma represents_send a0 ph pe pw c f : settled ph -> represents a0 ph pe pw c -> api f ->
  represents a0 ph pe pw (fst (f c)).
Proof.
  intros Sp (is & W & A) (k & Kk & Mk).
  assert (Data : forall o data fin, data_call k = Some (o, data, fin) -> may_send c o ->
     represents a0 ph pe pw (fst (send_frame X (mkframe fin o data) (set_expect_cont c (negb fin))))).
  { intros o data fin Dk Ms.
    destruct (send_frame_step (mkframe fin o data) (set_expect_cont c (negb fin)))
      as [(exts & e & -> & U)|(f' & exts & w & -> & S & L)]; cbn [fst].
    - exists is. split; [exact W|]. eapply as_step; [exact A|].
      apply (s_data_fails k o data fin (core c) exts e is (pe ++ c_events c) ph); auto.
    - exists (is ++ [Sent f' (conn_key c)]). rewrite after_send_writes, after_send_events, core_after_send.
      split.
      + rewrite app_assoc. apply written_app; assumption.
      + eapply as_step; [exact A|].
        apply (s_data k o data fin (core c) exts f' is (pe ++ c_events c) ph); auto. }
  assert (Ctrl : forall o data, ctrl_call k = Some (o, data) ->
     represents a0 ph pe pw (fst (send_frame X (mkframe true o data) c))).
  { intros o data Dk.
    destruct (send_frame_step (mkframe true o data) c)
      as [(exts & e & -> & U)|(f' & exts & w & -> & S & L)]; cbn [fst].
    - exists is. split; [exact W|]. eapply as_step; [exact A|].
      apply (s_ctrl_fails k o data (core c) exts e is (pe ++ c_events c) ph); auto.
    - exists (is ++ [Sent f' (conn_key c)]). rewrite after_send_writes, after_send_events, core_after_send.
      split.
      + rewrite app_assoc. apply written_app; assumption.
      + eapply as_step; [exact A|].
        apply (s_ctrl k o data (core c) exts f' is (pe ++ c_events c) ph); auto. }
  assert (R0 : represents a0 ph pe pw c) by (exists is; auto).
  destruct k; try discriminate Mk; injection Mk as <-.
  - unfold send_continuation. destruct (c_expect_cont c) eqn:Ex; cbn [negb]; [|exact R0]. apply Data; auto.
  - unfold send_text. destruct (c_expect_cont c) eqn:Ex; [exact R0|]. apply Data; auto.
  - unfold send_binary. destruct (c_expect_cont c) eqn:Ex; [exact R0|]. apply Data; auto.
  - unfold send_close. destruct (c_expect_cont c) eqn:Ex; [exact R0|].
    fold (close_payload code reason). destruct (close_payload code reason) as [data|e] eqn:Cp; [|exact R0].
    unfold mseq.
    destruct (send_frame_step (mkframe true CLOSE data) c)
      as [(exts & e & -> & U)|(f' & exts & w & -> & S & L)].
    + exists is. split; [exact W|]. eapply as_step; [exact A|].
      apply (s_close_fails code reason data (core c) exts e is (pe ++ c_events c) ph); auto.
    + pose proof (start_closing_step c exts w pw is f' W L) as SC.
      destruct (start_closing (after_send c exts w)) as [c' r]. cbn [fst].
      destruct SC as (_ & C & Ev & W'). exists (is ++ [Sent f' (conn_key c)] ++ closing_items c).
      split; [exact W'|]. rewrite Ev, C. eapply as_step; [exact A|].
      apply (s_close code reason data (core c) exts f' is (pe ++ c_events c) ph); auto.
  - apply Ctrl. reflexivity.
  - apply Ctrl. reflexivity.
Qed.

Lemma represents_fail a0 e pe pw c : represents a0 (Failing e) pe pw c ->
  let '(code, reason) := close_code_for e in
  let '(c', r) := fail_connection X code reason c in
  represents a0 (Dead (match r with Ok _ => Some e | Raise _ => None end)) pe pw c'.
Proof.
  intros (is & W & A). destruct (close_code_for e) as [code reason] eqn:Cc.
  unfold fail_connection, mseq at 1.
  assert (Eof : forall c1 is1, written (pw ++ c_writes c1) is1 ->
     let '(c', r) := (if c_eof_sent c1 then mret c1 else send_eof c1) in
     r = Ok tt /\ core c' = set_eof_sent (core c1) true /\ c_events c' = c_events c1 /\
     written (pw ++ c_writes c') (is1 ++ eof_items c1)).
  { intros c1 is1 W1. unfold eof_items, send_eof, mret. destruct (c_eof_sent c1) eqn:Es.
    - rewrite app_nil_r. repeat split; auto. unfold core, set_eof_sent, set_writes, set_events. cbn. now rewrite Es.
    - repeat split; auto. cbn [c_writes set_writes]. rewrite app_assoc. apply written_app; [exact W1|reflexivity]. }
  destruct (Z.eqb_spec code 1006) as [C6|C6]; cbn [negb andb].
  - unfold mret at 1. specialize (Eof c is W).
    destruct (if c_eof_sent c then mret c else send_eof c) as [c' r]. destruct Eof as (-> & C & Ev & W').
    exists (is ++ eof_items c). split; [exact W'|]. rewrite Ev, C. eapply as_step; [exact A|].
    apply (s_fail_quiet e (core c) is (pe ++ c_events c)). left. rewrite Cc. exact C6.
  - destruct (c_state c) eqn:St; cbn [is_open];
    try (unfold mret at 1; specialize (Eof c is W);
      destruct (if c_eof_sent c then mret c else send_eof c) as [c' r]; destruct Eof as (-> & C & Ev & W');
      exists (is ++ eof_items c); split; [exact W'|]; rewrite Ev, C; eapply as_step; [exact A|];
      apply (s_fail_quiet e (core c) is (pe ++ c_events c)); right; change (c_state (core c)) with (c_state c);
      rewrite St; discriminate).
    destruct (serialize_close code reason) as [data|e'] eqn:Sc.
    2: { exists is. split; [exact W|]. eapply as_step; [exact A|].
         rewrite <- (core_eta (core c)) at 2. apply s_fail_raises; [rewrite Cc; exact C6|exact St|].
         left. split; [reflexivity|]. rewrite Cc. eauto. }
    unfold mseq.
    destruct (send_frame_step (mkframe true CLOSE data) c)
      as [(exts & e' & -> & U)|(f' & exts & w & -> & S & L)].
    + exists is. split; [exact W|]. eapply as_step; [exact A|].
      apply (s_fail_raises e (core c) is (pe ++ c_events c) exts); [rewrite Cc; exact C6|exact St|]. right. exists data, e'. rewrite Cc. split; [exact Sc|].
      exact U.
    + unfold mupd. specialize (Eof (set_state (after_send c exts w) CLOSING) (is ++ [Sent f' (conn_key c)])).
      cbn [c_writes set_state] in Eof. rewrite after_send_writes, app_assoc in Eof.
      specialize (Eof (written_app _ _ w (Sent f' (conn_key c)) W L)).
      destruct (if c_eof_sent (set_state (after_send c exts w) CLOSING) then mret _ else send_eof _) as [c' r].
      destruct Eof as (-> & C & Ev & W').
      exists (is ++ [Sent f' (conn_key c)] ++ eof_items c).
      replace (eof_items (set_state (after_send c exts w) CLOSING)) with (eof_items c) in W'
        by (unfold eof_items; cbn [c_eof_sent set_state]; now rewrite after_send_eof).
      rewrite <- app_assoc in W'. split; [exact W'|].
      rewrite Ev. cbn [c_events set_state]. rewrite after_send_events.
      replace (core c') with (set_eof_sent (set_state (sentc (core c) exts) CLOSING) true)
        by (rewrite C, <- (core_after_send c exts w); reflexivity).
      eapply as_step; [exact A|].
      apply (s_fail_close e (core c) is (pe ++ c_events c) data exts f');
        [rewrite Cc; exact C6|rewrite Cc; exact Sc|exact S].
Qed.

Lemma represents_parse_body a0 pe pw :
  preserved (K CReceiveEof) (represents a0 Alive pe pw) (fun e => represents a0 (Failing e) pe pw) (parse_body X).
Proof.
  apply parse_body_preserved.
  - intros c Hz (is & W & A) Cr Es. unfold send_eof. rewrite Es. cbn [fst].
    exists (is ++ [Eof]). split.
    + cbn [c_writes set_writes]. rewrite app_assoc. apply written_app; [exact W|reflexivity].
    + eapply as_step; [exact A|]. apply (s_eof (core c)); assumption.
  - intros c Hz (is & W & A) Cr. exists is. split; [exact W|]. eapply as_step; [exact A|].
    apply s_eof_fails; assumption.
  - intros c e (is & W & A) Hz We. exists is. split; [exact W|]. eapply as_step; [exact A|].
    rewrite <- (core_eta (core c)) at 2. apply s_unreadable; [left|]; auto.
  - intros c f0 exts e (is & W & A) Fi D. exists is. split; [exact W|]. eapply as_step; [exact A|].
    apply (s_unreadable (core c) exts e); [right; exists f0; auto|]. intros ->. right. exists f0, exts. exact D.
  - intros c f0 f exts e (is & W & A) Fi D C. exists is. split; [exact W|]. eapply as_step; [exact A|].
    apply (s_unreadable (core c) exts e).
    + right. exists f0. split; [exact Fi|]. right. exists f. auto.
    + intros ->. apply check_raises in C as [? ?]. discriminate.
  - intros c f0 f exts (is & W & A) Fi D C.
    assert (Rc : received (core c) f exts) by (exists f0; auto). clear f0 Fi D C.
    assert (Add : forall c' is' ev', written (pw ++ c_writes c') is' -> pe ++ c_events c' ++ [EvFrame f] = ev' ->
       astep (Abs (core c) is (pe ++ c_events c) Alive) (Abs (core c') is' ev' Alive) ->
       represents a0 Alive pe pw (add_event f c')).
    { intros c' is' ev' W' Ev S. exists is'. split; [exact W'|]. unfold add_event. cbn [c_events set_events].
      rewrite Ev. eapply as_step; [exact A|]. exact S. }
    assert (Fail : forall c' is' ev' e, written (pw ++ c_writes c') is' -> pe ++ c_events c' = ev' ->
       astep (Abs (core c) is (pe ++ c_events c) Alive) (Abs (core c') is' ev' (Failing e)) ->
       represents a0 (Failing e) pe pw c').
    { intros c' is' ev' e W' Ev S. exists is'. split; [exact W'|]. rewrite Ev. eapply as_step; [exact A|]. exact S. }
    unfold process_frame. destruct (f_opcode f) eqn:O.
    + (* CONT *)
      cbn [c_close_rcvd set_exts c_cur_size]. destruct (c_close_rcvd c) eqn:Cr.
      { eapply Fail; [exact W|reflexivity|]. cbn [c_events set_exts].
        apply (s_recv_data_fails f exts (core c)); [exact Rc|unfold is_data; auto|left; exact Cr|simpl; auto]. }
      destruct (c_cur_size c) as [n|] eqn:Cs.
      2: { eapply Fail; [exact W|reflexivity|]. cbn [c_events set_exts].
           apply (s_recv_data_fails f exts (core c)); [exact Rc|unfold is_data; auto| |simpl; auto].
           right. unfold in_order. rewrite O. change (c_cur_size (core c)) with (c_cur_size c). rewrite Cs.
           intros [n Hn]. discriminate. }
      pose proof (s_recv_data f exts (core c) is (pe ++ c_events c) Rc Cr) as S.
      unfold in_order, next_cur_size in S. rewrite O in S. change (c_cur_size (core c)) with (c_cur_size c) in S.
      rewrite Cs in S. specialize (S (ex_intro _ n eq_refl)).
      destruct (f_fin f); eapply Add; try exact W; try reflexivity; cbn [c_events set_exts set_cur_size];
        rewrite app_assoc; exact S.
    + (* TEXT *)
      cbn [c_close_rcvd set_exts c_cur_size]. destruct (c_close_rcvd c) eqn:Cr.
      { eapply Fail; [exact W|reflexivity|]. cbn [c_events set_exts].
        apply (s_recv_data_fails f exts (core c)); [exact Rc|unfold is_data; auto|left; exact Cr|simpl; auto]. }
      destruct (c_cur_size c) as [n|] eqn:Cs.
      { eapply Fail; [exact W|reflexivity|]. cbn [c_events set_exts].
           apply (s_recv_data_fails f exts (core c)); [exact Rc|unfold is_data; auto| |simpl; auto].
           right. unfold in_order. rewrite O. change (c_cur_size (core c)) with (c_cur_size c). rewrite Cs.
           discriminate. }
      pose proof (s_recv_data f exts (core c) is (pe ++ c_events c) Rc Cr) as S.
      unfold in_order, next_cur_size in S. rewrite O in S. change (c_cur_size (core c)) with (c_cur_size c) in S.
      rewrite Cs in S. specialize (S eq_refl).
      destruct (f_fin f); eapply Add; try exact W; try reflexivity; cbn [c_events set_exts set_cur_size];
        rewrite app_assoc; exact S.
    + (* BINARY *)
      cbn [c_close_rcvd set_exts c_cur_size]. destruct (c_close_rcvd c) eqn:Cr.
      { eapply Fail; [exact W|reflexivity|]. cbn [c_events set_exts].
        apply (s_recv_data_fails f exts (core c)); [exact Rc|unfold is_data; auto|left; exact Cr|simpl; auto]. }
      destruct (c_cur_size c) as [n|] eqn:Cs.
      { eapply Fail; [exact W|reflexivity|]. cbn [c_events set_exts].
           apply (s_recv_data_fails f exts (core c)); [exact Rc|unfold is_data; auto| |simpl; auto].
           right. unfold in_order. rewrite O. change (c_cur_size (core c)) with (c_cur_size c). rewrite Cs.
           discriminate. }
      pose proof (s_recv_data f exts (core c) is (pe ++ c_events c) Rc Cr) as S.
      unfold in_order, next_cur_size in S. rewrite O in S. change (c_cur_size (core c)) with (c_cur_size c) in S.
      rewrite Cs in S. specialize (S eq_refl).
      destruct (f_fin f); eapply Add; try exact W; try reflexivity; cbn [c_events set_exts set_cur_size];
        rewrite app_assoc; exact S.
    + (* CLOSE *)
      set (c1 := set_close_rcvd (set_exts c exts) true).
      destruct (parse_close (f_data f)) as [[code reason]|e] eqn:Pc.
      2: { eapply Fail; [exact W|reflexivity|]. apply (s_recv_close_bad f exts (core c)); assumption. }
      set (c2 := set_close c1 code reason).
      destruct (c_cur_size c2) as [n|] eqn:Cs; change (c_cur_size c2) with (c_cur_size c) in Cs.
      { eapply Fail; [exact W|reflexivity|]. eapply (s_recv_close_incomplete f exts (core c)); eassumption. }
      destruct (c_state c) eqn:St; change (c_state c2) with (c_state c); rewrite St; cbn [is_open];
        try (eapply Add; [exact W|reflexivity|]; cbn [c2 c1 c_events set_exts set_close set_close_rcvd];
          rewrite app_assoc; apply (s_recv_close_quiet f exts (core c)); auto;
          change (c_state (core c)) with (c_state c); rewrite St; discriminate).
      unfold mseq.
      destruct (send_frame_step (mkframe true CLOSE (f_data f)) c2)
        as [(exts' & e' & -> & U)|(f' & exts' & w & -> & S & L)].
      * eapply Fail; [exact W|reflexivity|]. apply (s_recv_close_fails f exts exts' e' (core c)); assumption.
      * pose proof (start_closing_step c2 exts' w pw is f' W L) as SC.
        destruct (start_closing (after_send c2 exts' w)) as [c' r].
        destruct SC as ([(-> & He)|(-> & Sv & Es)] & Cc & Ev & W').
        -- eapply Add; [exact W'|reflexivity|]. rewrite Ev, Cc, (app_assoc pe).
           apply (s_recv_close f exts exts' f' (core c) is (pe ++ c_events c) code reason); auto.
        -- eapply Fail; [exact W'|reflexivity|]. rewrite Ev, Cc. unfold closing_items.
           change (c_side c2) with (c_side c) in *. change (c_eof_sent c2) with (c_eof_sent c) in *.
           rewrite Sv. unfold eof_items. change (c_eof_sent c2) with (c_eof_sent c). rewrite Es, app_nil_r.
           apply (s_recv_close_eof f exts exts' f' (core c) is (pe ++ c_events c) code reason); auto.
    + (* PING *)
      cbn [c_close_rcvd set_exts]. destruct (c_close_rcvd c) eqn:Cr.
      { eapply Add; [exact W|reflexivity|]. cbn [c_events set_exts]. rewrite app_assoc.
        apply (s_recv_pong f exts (core c)); auto. }
      destruct (send_frame_step (mkframe true PONG (f_data f)) (set_exts c exts))
        as [(exts' & e' & -> & U)|(f' & exts' & w & -> & S & L)].
      * eapply Fail; [exact W|reflexivity|]. apply (s_recv_ping_fails f exts exts' e' (core c)); assumption.
      * eapply Add; [| |].
        -- rewrite after_send_writes, app_assoc. apply (written_app _ is w (Sent f' (conn_key c))); [exact W|exact L].
        -- reflexivity.
        -- rewrite after_send_events, core_after_send, app_assoc.
           apply (s_recv_ping f exts exts' f' (core c)); auto.
    + (* PONG *)
      eapply Add; [exact W|reflexivity|]. cbn [c_events set_exts]. rewrite app_assoc.
      apply (s_recv_pong f exts (core c)); auto.
Qed.

Definition phase_of (m : machine E) : phase :=
  match m_parser m with PRun _ => Alive | PDead => Dead (m_exc m) end.

Definition represents_m (a0 : abs) (pe : list event) (pw : list bytes) (m : machine E) : Prop :=
  represents a0 (phase_of m) pe pw (m_conn m).

Theorem hist_steps a0 m0 pe pw m : 
  waits X (fun _ => False) m0 -> represents_m a0 [] [] m0 ->
  hist X api (K CReceiveEof) m0 pe pw m ->
  waits X (fun _ => False) m /\ represents_m a0 pe pw m.
Proof.
  intros Wm Rm H.
  pose proof (hist_preserved X api (K CReceiveEof) (fun _ => False) (represents a0 Alive)
    (fun e => represents a0 (Failing e)) (fun x => represents a0 (Dead x))) as R.
  destruct (R ltac:(contradiction) ltac:(contradiction) (represents_parse_body a0)
    (fun pe pw e c => represents_fail a0 e pe pw c)
    (fun pe pw f c Mf Hr => represents_send a0 Alive pe pw c f I Hr Mf)
    (fun x pe pw f c Mf Hr => represents_send a0 (Dead x) pe pw c f I Hr Mf)) with (m0 := m0)
    (pe := pe) (pw := pw) (m := m) as [W HH]; clear R.
  - intros f c (k & _ & Mk). apply api_frozen with (X := X). destruct k; try discriminate Mk; injection Mk as <-; constructor.
  - intros pe' pw' c (is & W & A). exists is. split; [exact W|]. cbn [c_events set_events]. rewrite app_nil_r. exact A.
  - intros pe' pw' c (is & W & A). exists is. cbn [c_writes set_writes]. rewrite app_nil_r. split; [exact W|exact A].
  - intros x pe' pw' c (is & W & A). exists is. split; [exact W|]. cbn [c_events set_events]. rewrite app_nil_r. exact A.
  - intros x pe' pw' c (is & W & A). exists is. cbn [c_writes set_writes]. rewrite app_nil_r. split; [exact W|exact A].
  - exact Wm.
  - unfold represents_m, phase_of in Rm. unfold holds. destruct (m_parser m0); exact Rm.
  - exact H.
  - split; [exact W|]. unfold represents_m, phase_of. unfold holds in HH. destruct (m_parser m); exact HH.
Qed.

Theorem calls_steps c0 ks m rs :
  c_events c0 = [] -> c_writes c0 = [] -> Forall K ks ->
  do_calls X (start X (parse_body X) c0) ks = (m, rs) ->
  waits X (fun _ => False) m /\
  exists is, written (all_writes rs m) is /\
    asteps (Abs (core c0) [] [] Alive) (Abs (core (m_conn m)) is (all_events rs m) (phase_of m)).
Proof.
  intros He Hw HK D. rewrite Forall_forall in HK.
  pose proof (calls_hist X api (K CReceiveEof) (start X (parse_body X) c0) ks (start X (parse_body X) c0) [] []) as H.
  rewrite D in H. apply hist_steps with (a0 := Abs (core c0) [] [] Alive) in H; auto.
  - apply start_waits; [contradiction|auto].
  - rewrite start_parse_body. exists []. cbn [m_conn]. rewrite He, Hw. split; [constructor|]. constructor.
  - intros k f Hk Mk. exists k. auto.
  - constructor.
Qed.

Lemma asteps_inv (I : abs -> Prop) a : I a -> (forall x y, I x -> astep x y -> I y) ->
  forall y, asteps a y -> I y.
Proof. intros H0 Hs y H. induction H; eauto. Qed.

Lemma asteps_trans x y z : asteps x y -> asteps y z -> asteps x z.
Proof. intros H1 H2. induction H2; [exact H1|]. eapply as_step; eassumption. Qed.
(* what was written and delivered before doesn't matter *)
Lemma astep_frame x y : astep x y -> exists l l', a_is y = a_is x ++ l /\ a_ev y = a_ev x ++ l' /\
  forall p q, astep (Abs (a_c x) p q (a_ph x)) (Abs (a_c y) (p ++ l) (q ++ l') (a_ph y)).
Proof.
  assert (Z : forall (x0 : list item) (e0 : list event), x0 = x0 ++ [] /\ e0 = e0 ++ []) by (intros; now rewrite !app_nil_r).
  intros S. destruct S; cbn [a_c a_is a_ev a_ph];
  match goal with
  | |- exists l l', ?i ++ ?a = ?i ++ l /\ ?e ++ ?b = ?e ++ l' /\ _ => exists a, b
  | |- exists l l', ?i ++ ?a = ?i ++ l /\ ?e = ?e ++ l' /\ _ => exists a, []
  | |- exists l l', ?i = ?i ++ l /\ ?e ++ ?b = ?e ++ l' /\ _ => exists [], b
  | |- exists l l', ?i = ?i ++ l /\ ?e = ?e ++ l' /\ _ => exists [], []
  end; rewrite ?app_nil_r; (split; [reflexivity|]); (split; [reflexivity|]); intros p q; rewrite ?app_nil_r;
  econstructor; eassumption.
Qed.

Lemma asteps_frame x y : asteps x y -> exists l l', a_is y = a_is x ++ l /\ a_ev y = a_ev x ++ l' /\
  forall p q, asteps (Abs (a_c x) p q (a_ph x)) (Abs (a_c y) (p ++ l) (q ++ l') (a_ph y)).
Proof.
  intros H. induction H as [|y z H (l & l' & I1 & I2 & I3) S].
  - exists [], []. rewrite !app_nil_r. split; [reflexivity|]. split; [reflexivity|]. intros p q. rewrite !app_nil_r. apply as_refl.
  - destruct (astep_frame y z S) as (k & k' & J1 & J2 & J3). exists (l ++ k), (l' ++ k').
    rewrite J1, J2, I1, I2, !app_assoc. split; [reflexivity|]. split; [reflexivity|].
    intros p q. rewrite !app_assoc. eapply as_step; [apply I3|apply J3].
Qed.
End Steps.
Arguments abs E : clear implicits.
Arguments Abs {E}.

(* from any point of a history *)
Lemma resume {E} (X : ext_ops E) c0 ks m rs ks' m' rs' :
  c_events c0 = [] -> c_writes c0 = [] ->
  do_calls X (start X (parse_body X) c0) ks = (m, rs) -> do_calls X m ks' = (m', rs') ->
  exists is l l', written (all_writes rs m) is /\ written (all_writes (rs ++ rs') m') (is ++ l) /\
    all_events (rs ++ rs') m' = all_events rs m ++ l' /\
    asteps X (fun k => In k ks') (Abs (core (m_conn m)) is (all_events rs m) (phase_of m))
      (Abs (core (m_conn m')) (is ++ l) (all_events rs m ++ l') (phase_of m')).
Proof.
  intros He Hw H D.
  destruct (calls_steps X (fun k => In k ks) c0 ks m rs He Hw) as (Wm & is & W & _); [apply Forall_forall; auto|exact H|].
  unfold all_writes in W. apply Forall2_app_inv_l in W as (is1 & is2 & W1 & W2 & ->).
  pose proof (calls_hist X (api X (fun k => In k ks')) (In CReceiveEof ks') m ks' m [] []) as Hh. rewrite D in Hh.
  destruct (hist_steps X (fun k => In k ks') (Abs (core (m_conn m)) is2 (c_events (m_conn m)) (phase_of m))
              m (flat_map delivered_by rs') (flat_map written_by rs') m') as (_ & is3 & W3 & A).
  - exact Wm.
  - exists is2. split; [exact W2|]. apply as_refl.
  - apply Hh; [|auto|apply h_refl]. intros k f Hk Mk. exists k. auto.
  - apply asteps_frame in A as (l & l' & Hl & Hl' & A). cbn [a_is a_ev a_c a_ph] in *.
    exists (is1 ++ is2), l, l'. unfold all_writes, all_events. rewrite !flat_map_app, <- !app_assoc, Hl'.
    split; [apply Forall2_app; assumption|]. split; [|split].
    + apply Forall2_app; [exact W1|]. rewrite <- Hl. exact W3.
    + reflexivity.
    + specialize (A (is1 ++ is2) (flat_map delivered_by rs ++ c_events (m_conn m))). rewrite <- !app_assoc in A. exact A.
Qed.
