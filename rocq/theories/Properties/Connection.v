(* C07, C09-C14, C18-C21: properties of the whole life of a sans-I/O connection.

   A history is a list of calls made on a connection, in any order and any number: every
   theorem below quantifies over all of them, over all the data received, on both sides.
   What was delivered is [all_events rs m]; what was written is [all_writes rs m], a list
   of bytestrings which [written] relates to the frames written (it determines them:
   Proofs/MessagesFacts.v, written_unique). *)
From Verif Require Import Base.Prelude Base.PreludeFacts Model.Utils Model.Streams Model.Frames
  Model.Http11 Model.Connection Spec.Rfc6455 Spec.FrameSpec Spec.Messages Spec.History
  Proofs.StreamsFacts Proofs.FramesFacts Proofs.ParserFacts Proofs.AtomicFacts Proofs.ConnectionFacts
  Proofs.Steps Proofs.MessagesFacts Proofs.Invariants Proofs.SendInvariants Proofs.MoreInvariants
  Properties.FrameCodec.

Definition history {E} (X : ext_ops E) (c0 : conn E) (ks : list call) (m : machine E) (rs : list ret) : Prop :=
  do_calls X (start X (parse_body X) c0) ks = (m, rs).

(* ---- an example: a client sends a fragmented message with a ping in the middle, while it
   receives a ping, a fragmented message and a close frame; data comes in two chunks ---- *)
Definition bs (l : list N) : bytes := map n2b l.
Definition ex_keys (i : nat) : key4 := Key4 (n2b (N.of_nat i)) (n2b 1) (n2b 2) (n2b 3).
Definition ex_client : conn Empty_set := new_conn CLIENT OPEN (Some 1000%Z) ex_keys.
Definition ex_server : conn Empty_set := new_conn SERVER OPEN (Some 1000%Z) ex_keys.
Lemma by_running {E} (X : ext_ops E) c0 ks (P : machine E -> list ret -> Prop) :
  P (fst (do_calls X (start X (parse_body X) c0) ks)) (snd (do_calls X (start X (parse_body X) c0) ks)) ->
  exists m rs, history X c0 ks m rs /\ P m rs.
Proof. intros H. eexists _, _. split; [|exact H]. apply surjective_pairing. Qed.
Definition ex_calls : list call :=
  [ CSendText (b "he") false; CSendPing (b "?"); CSendContinuation (b "llo") true;
    CReceiveData (bs [137; 2; 97; 98; 1; 1; 99; 128]%N); CDataToSend; CEventsReceived;
    CReceiveData (bs [1; 100; 136; 2; 3; 232]%N); CReceiveEof ].
Example ex_history : exists m rs, history no_ext ex_client ex_calls m rs /\
  map f_opcode (frames_of (all_events rs m)) = [PING; TEXT; CONT; CLOSE] /\
  length (all_writes rs m) = 6 /\ c_state (m_conn m) = CLOSING.
Proof. apply by_running. vm_compute. auto. Qed.
Example ex_client_fresh : fresh OPEN ex_client.
Proof. repeat split. Qed.

(* ---- C07 ---- *)

Definition first_error (rs : list ret) : option exn :=
  fold_right (fun r o => match r with RRaise e => Some e | _ => o end) None rs.

Lemma feed_chunks {E} (X : ext_ops E) ds : forall m d,
  parser_live m ->
  fst (do_calls X m (map CReceiveData (d :: ds))) = fst (receive_data X m (d ++ concat ds)) /\
  first_error (snd (do_calls X m (map CReceiveData (d :: ds)))) =
  match snd (receive_data X m (d ++ concat ds)) with Ok _ => None | Raise e => Some e end.
Proof.
  induction ds as [|d' ds IH]; intros m d L; cbn [map concat do_calls do_call].
  - rewrite app_nil_r. destruct (receive_data X m d) as [m' [u|e]]; split; reflexivity.
  - rewrite (receive_data_app X m d (d' ++ concat ds) L). cbn [fst snd].
    pose proof (receive_data_live X m d L) as L'.
    destruct (receive_data X m d) as [m1 r1] eqn:R1. cbn [fst snd] in *.
    specialize (IH m1 d' L'). cbn [map do_calls do_call] in IH.
    destruct (receive_data X m1 d') as [m2 r2]. destruct (do_calls X m2 (map CReceiveData ds)) as [m3 rs3].
    cbn [fst snd first_error fold_right] in *. destruct IH as [IH1 IH2]. split; [exact IH1|].
    destruct r1 as [u|e]; cbn [ret_of]; [exact IH2|reflexivity].
Qed.

(* After any history, receiving the same bytes split in any two ways leads to the same
   connection: same events, same bytes to send, same attributes, same pending input; and
   raises the same error, or none. *)
Theorem C07_chunking_irrelevant :
  forall E (X : ext_ops E) c0 ks m rs ds ds',
    history X c0 ks m rs ->
    ds <> [] -> ds' <> [] -> concat ds = concat ds' ->
    fst (do_calls X m (map CReceiveData ds)) = fst (do_calls X m (map CReceiveData ds')) /\
    first_error (snd (do_calls X m (map CReceiveData ds))) =
    first_error (snd (do_calls X m (map CReceiveData ds'))).
Proof.
  intros E X c0 ks m rs [|d ds] [|d' ds'] H N N' Ec; try contradiction. cbn [concat] in Ec.
  assert (L : parser_live m).
  { pose proof (do_calls_live X (start X (parse_body X) c0) ks (start_live X (parse_body X) c0 (live_parse_body X))) as L.
    unfold history in H. rewrite H in L. exact L. }
  destruct (feed_chunks X ds m d L) as [-> ->]. destruct (feed_chunks X ds' m d' L) as [-> ->].
  rewrite Ec. split; reflexivity.
Qed.

Example C07_applies : exists m rs, history no_ext ex_client (firstn 3 ex_calls) m rs /\
  let c1 := m_conn (fst (do_calls no_ext m (map CReceiveData [bs [137]%N; []; bs [2; 97]%N; bs [98; 1; 1; 99; 128]%N]))) in
  let c2 := m_conn (fst (do_calls no_ext m (map CReceiveData [bs [137; 2; 97; 98; 1; 1]%N; bs [99; 128]%N]))) in
  c_events c1 = c_events c2 /\ length (c_events c1) = 2 /\ length (c_writes c1) = 4.
Proof. apply by_running. vm_compute. auto. Qed.

(* ---- using the invariants ---- *)

Section Use.
Context {E : Type} (X : ext_ops E).
Variables (c0 : conn E) (ks : list call) (m : machine E) (rs : list ret).
Hypothesis H : history X c0 ks m rs.

Lemma use_steps st : fresh st c0 ->
  exists is, written (all_writes rs m) is /\
    asteps X (fun k => In k ks) (Abs (core c0) [] [] Alive)
      (Abs (core (m_conn m)) is (all_events rs m) (phase_of m)).
Proof.
  intros (_ & _ & _ & _ & _ & _ & He & Hw & _).
  destruct (calls_steps X (fun k => In k ks) c0 ks m rs He Hw) as (_ & is & W & A); [|exact H|eauto].
  apply Forall_forall. auto.
Qed.

Lemma use_inv st (I : abs E -> Prop) : fresh st c0 ->
  I (Abs (core c0) [] [] Alive) ->
  (forall x y, asteps X (fun k => In k ks) (Abs (core c0) [] [] Alive) x -> I x ->
               astep X (fun k => In k ks) x y -> I y) ->
  exists is, written (all_writes rs m) is /\
    I (Abs (core (m_conn m)) is (all_events rs m) (phase_of m)).
Proof.
  intros F I0 IS. destruct (use_steps st F) as (is & W & A). exists is. split; [exact W|].
  assert (G : forall y, asteps X (fun k => In k ks) (Abs (core c0) [] [] Alive) y -> I y).
  { intros y Hy. induction Hy; [exact I0|]. eapply IS; eauto. }
  auto.
Qed.
End Use.

Lemma sm_nil : well_formed_messages [].
Proof. exists [], []. apply message_sequence_nil. Qed.

(* ---- C09 ---- *)

(* No message delivered, complete or in progress, exceeds max_size, if there are no
   extensions or they don't make frames exceed the limit they're given. *)
Theorem C09_message_size :
  forall E (X : ext_ops E) c0 ks m rs st max_size,
    fresh st c0 -> keeps_framing X ->
    (c_exts c0 = [] \/ honours_limit X) ->
    c_max_size c0 = Some max_size ->
    history X c0 ks m rs ->
    exists done current,
      message_sequence (frames_of (all_events rs m)) done current /\
      Forall (fun msg => (Z.of_nat (message_size msg) <= max_size)%Z) done /\
      (current <> [] -> (Z.of_nat (message_size current) <= max_size)%Z).
Proof.
  intros E X c0 ks m rs st max F Kf Ex Mx H.
  destruct (use_inv X c0 ks m rs H st (inv_messages X) F) as (is & W & (done & cur & M & C & L)).
  - exists [], []. split; [apply message_sequence_nil|]. destruct F as (_ & Cs & _). split; [exact Cs|].
    intros _ m0 _. split; [constructor|congruence].
  - intros x y _. apply messages_step. exact Kf.
  - exists done, cur. split; [exact M|]. apply L.
    + destruct Ex as [Ex|Ex]; [left|auto]. destruct (use_steps X c0 ks m rs H st F) as (is' & _ & A).
      apply steps_noext in A; exact A || exact Ex.
    + destruct (use_steps X c0 ks m rs H st F) as (is' & _ & A). apply steps_const in A as (_ & A & _).
      cbn [a_c] in A. change (c_max_size (core (m_conn m)) = Some max). rewrite A. exact Mx.
Qed.

Example C09_applies : fresh OPEN ex_client /\ keeps_framing no_ext /\ c_exts ex_client = [] /\
  c_max_size ex_client = Some 1000%Z /\
  exists m rs, history no_ext ex_client ex_calls m rs /\
    map (fun f => length (f_data f)) (data_frames (frames_of (all_events rs m))) = [1; 1].
Proof.
  split; [exact ex_client_fresh|]. split; [split; intros []|]. split; [reflexivity|]. split; [reflexivity|].
  apply by_running. vm_compute. reflexivity.
Qed.

(* ---- C10 ---- *)

Theorem C10_delivered_messages :
  forall E (X : ext_ops E) c0 ks m rs st,
    fresh st c0 -> keeps_framing X -> history X c0 ks m rs ->
    well_formed_messages (frames_of (all_events rs m)).
Proof.
  intros E X c0 ks m rs st F Kf H.
  destruct (use_inv X c0 ks m rs H st (inv_messages X) F) as (is & W & (done & cur & M & _)).
  - exists [], []. split; [apply message_sequence_nil|]. destruct F as (_ & Cs & _). split; [exact Cs|].
    intros _ m0 _. split; [constructor|congruence].
  - intros x y _. apply messages_step. exact Kf.
  - exists done, cur. exact M.
Qed.

(* A close frame is delivered only between messages: the messages before it are complete and
   none follows. *)
Theorem C10_close_between_messages :
  forall E (X : ext_ops E) c0 ks m rs st,
    fresh st c0 -> keeps_framing X -> history X c0 ks m rs ->
    (exists f, In f (frames_of (all_events rs m)) /\ is_close f) ->
    exists done, message_sequence (frames_of (all_events rs m)) done [].
Proof.
  intros E X c0 ks m rs st F Kf H Hc.
  destruct (use_inv X c0 ks m rs H st (fun a => inv_messages X a /\ inv_close_between a) F) as (is & W & (done & cur & M & C & _) & _ & B).
  - destruct F as (_ & Cs & _ & Cr & _). split.
    + exists [], []. split; [apply message_sequence_nil|]. split; [exact Cs|].
      intros _ m0 _. split; [constructor|congruence].
    + split; [|intros _; exact Cs]. split; [intros Q; inversion Q|]. split.
      * intros _. change (c_close_rcvd c0 = true -> has_close []). congruence.
      * intros pre f post Q. destruct pre; discriminate.
  - intros x y _ [I1 I2] St. split; [eapply messages_step; eauto|eapply close_between_step; eauto].
  - exists done. destruct cur as [|g cur]; [exact M|]. exfalso.
    assert (Q : has_close (frames_of (all_events rs m))) by (apply Exists_exists; exact Hc).
    apply B in Q. rewrite C in Q. discriminate.
Qed.

Example C10_applies : fresh OPEN ex_client /\ keeps_framing no_ext /\
  exists m rs, history no_ext ex_client
     [CReceiveData (bs [1; 1; 65; 0x89; 0; 0x80; 1; 66]); CReceiveData (bs [0x82; 0; 0x88; 2; 3; 0xe8])]%N m rs /\
    map f_opcode (frames_of (all_events rs m)) = [TEXT; PING; CONT; BINARY; CLOSE].
Proof.
  split; [exact ex_client_fresh|]. split; [split; intros []|]. apply by_running. vm_compute. reflexivity.
Qed.

(* ---- C11 ---- *)

(* The frames written form well-formed messages, provided that writing doesn't fail because
   of an extension or of a payload of 2^64 bytes. *)
Theorem C11_sent_messages :
  forall E (X : ext_ops E) c0 ks m rs st,
    fresh st c0 -> keeps_framing X ->
    (c_exts c0 = [] \/ total_encoder X) ->
    (forall k op data fin, In k ks -> data_call k = Some (op, data, fin) -> (lenN data < 2 ^ 64)%N) ->
    history X c0 ks m rs ->
    exists is, written (all_writes rs m) is /\ well_formed_messages (sent_frames is).
Proof.
  intros E X c0 ks m rs st F Kf T Sd H.
  destruct (use_inv X c0 ks m rs H st inv_sent_messages F) as (is & W & I & _).
  - split; [apply sm_nil|]. intros _. exists [], []. split; [apply message_sequence_nil|].
    destruct F as (_ & _ & Ex & _). exact Ex.
  - intros x y A. apply sent_messages_step; [exact Kf|exact Sd|].
    destruct T as [T|T]; [left|auto]. apply steps_noext in A; exact A || exact T.
  - exists is. split; [exact W|exact I].
Qed.

(* A message in progress on an open connection can only be continued, and only a message in
   progress can be continued: other calls raise a protocol error and change nothing. *)
Theorem C11_only_in_order :
  forall E (X : ext_ops E) c0 ks m rs st k op data fin,
    fresh st c0 -> keeps_framing X ->
    (c_exts c0 = [] \/ total_encoder X) ->
    (forall k op data fin, In k ks -> data_call k = Some (op, data, fin) -> (lenN data < 2 ^ 64)%N) ->
    history X c0 ks m rs -> c_state (m_conn m) = OPEN ->
    data_call k = Some (op, data, fin) -> (lenN data < 2 ^ 64)%N ->
    exists is done current, written (all_writes rs m) is /\
      message_sequence (sent_frames is) done current /\
      (if (match op with CONT => true | _ => false end) && (match current with [] => true | _ => false end) ||
          negb (match op with CONT => true | _ => false end) && negb (match current with [] => true | _ => false end)
       then exists msg, do_call X m k = (m, RRaise (ProtocolError msg))
       else exists m', do_call X m k = (m', RNone)).
Proof.
  intros E X c0 ks m rs st k op data fin F Kf T Sd H St Dk Ld.
  destruct (use_inv X c0 ks m rs H st inv_sent_messages F) as (is & W & _ & I).
  - split; [apply sm_nil|]. intros _. exists [], []. split; [apply message_sequence_nil|].
    destruct F as (_ & _ & Ex & _). exact Ex.
  - intros x y A. apply sent_messages_step; [exact Kf|exact Sd|].
    destruct T as [T|T]; [left|auto]. apply steps_noext in A; exact A || exact T.
  - destruct (I St) as (done & cur & M & Ex). exists is, done, cur. split; [exact W|]. split; [exact M|].
    cbn [a_c] in Ex. change (c_expect_cont (m_conn m) = match cur with [] => false | _ :: _ => true end) in Ex.
    assert (T' : c_exts (m_conn m) = [] \/ total_encoder X).
    { destruct T as [T|T]; [left|auto]. destruct (use_steps X c0 ks m rs H st F) as (is' & _ & A).
      apply steps_noext in A; exact A || exact T. }
    assert (Sf : forall o, is_ctrl o = false -> exists m', 
       on_conn m (fun c => send_frame X (mkframe fin o data) (set_expect_cont c (negb fin))) = (m', RNone)).
    { intros o Ho. unfold on_conn.
      destruct (send_frame_step X (mkframe fin o data) (set_expect_cont (m_conn m) (negb fin)))
        as [(exts & e & _ & U)|(f' & exts & w & -> & _)].
      - exfalso. eapply (never_unsendable X (set_expect_cont (m_conn m) (negb fin)) fin o data exts e); eauto.
      - eexists. reflexivity. }
    destruct m as [c rd ps ex]. cbn [m_conn] in *.
    destruct k; try discriminate Dk; cbn [data_call] in Dk; injection Dk as <- <- <-;
    destruct cur; cbn [andb orb negb do_call]; unfold on_conn, send_continuation, send_text, send_binary;
    cbn [m_conn]; rewrite Ex; cbn [negb];
    solve [ eexists; reflexivity | apply (Sf CONT eq_refl) | apply (Sf TEXT eq_refl) | apply (Sf BINARY eq_refl) ].
Qed.

Example C11_applies : exists m rs, history no_ext ex_client (firstn 2 ex_calls) m rs /\
  c_state (m_conn m) = OPEN /\
  snd (do_call no_ext m (CSendText (b "x") true)) = RRaise (ProtocolError (s "expected a continuation frame")) /\
  snd (do_call no_ext m (CSendContinuation (b "x") true)) = RNone.
Proof. apply by_running. vm_compute. auto. Qed.

(* ---- C12 ---- *)

Theorem C12_close_frame_once_and_last :
  forall E (X : ext_ops E) c0 ks m rs st,
    fresh st c0 -> keeps_framing X -> history X c0 ks m rs ->
    exists is, written (all_writes rs m) is /\
      forall pre f key post, is = pre ++ Sent f key :: post -> is_close f ->
        only_eof post /\ (forall f' key', In (Sent f' key') pre -> ~ is_close f').
Proof.
  intros E X c0 ks m rs st F Kf H.
  destruct (use_inv X c0 ks m rs H st inv_close_sent F) as (is & W & _ & I).
  - split; [intros I; inversion I|]. intros pre f k post He. destruct pre; discriminate.
  - intros x y _. apply close_sent_step. exact Kf.
  - exists is. split; [exact W|]. intros pre f key post He Hf. destruct (I pre f key post He Hf) as [I1 I2]. split.
    + intros i Hi. rewrite Forall_forall in I1. now apply I1.
    + intros f' key' Hin Hf'. apply I2. apply Exists_exists. exists f'. split; [|exact Hf'].
      apply in_flat_map. exists (Sent f' key'). split; [exact Hin|]. now left.
Qed.

Example C12_applies : exists m rs, history no_ext ex_client (ex_calls ++ [CSendClose (Some 1000%Z) []; CSendPing []]) m rs /\
  skipn 4 (all_writes rs m) = [bs [136; 130; 4; 1; 2; 3; 7; 233]%N; []] /\
  skipn 8 rs = [RRaise (InvalidState (s "cannot write to a WebSocket in the CLOSING state"));
                RRaise (InvalidState (s "cannot write to a WebSocket in the CLOSING state"))].
Proof. apply by_running. vm_compute. auto. Qed.

(* ---- C13 ---- *)

Lemma exc_was_raised {E} (X : ext_ops E) ks : forall m m' rs e,
  do_calls X m ks = (m', rs) -> m_exc m' = Some e -> m_exc m = Some e \/ In (RRaise e) rs.
Proof.
  assert (Sp : forall m m' r e, step_parser X m = (m', r) -> m_exc m' = Some e -> m_exc m = Some e \/ r = Raise e).
  { intros m m' r e. rewrite step_parser_eq. destruct (m_parser m) as [g|]; [|intros [= <- <-]; auto].
    destruct (parse_all X g (m_reader m) (m_conn m)) as [[g' r' c'|a r' c'|x r' c']|]; try (intros [= <- <-]; auto; fail).
    destruct (close_code_for x) as [code reason]. destruct (fail_connection X code reason c') as [c'' [u|x']]; intros [= <- <-]; cbn; auto.
    intros [= ->]. auto. }
  induction ks as [|k ks IH]; intros m m' rs e; cbn [do_calls].
  - intros [= <- <-]. auto.
  - destruct (do_call X m k) as [m1 r] eqn:Dk. destruct (do_calls X m1 ks) as [m2 rs2] eqn:Dks. intros [= <- <-] He.
    destruct (IH _ _ _ _ Dks He) as [H|H]; [|right; now right].
    destruct k; cbn [do_call] in Dk; unfold on_conn in Dk;
    try (match type of Dk with (let '(_, _) := ?t in _) = _ => destruct t end; injection Dk as <- <-; cbn in H; auto; fail).
    + unfold receive_data in Dk. destruct (feed_data (m_reader m) data) as [rd|x].
      * destruct (step_parser X _) as [m3 r3] eqn:Ds. injection Dk as <- <-. destruct (Sp _ _ _ _ Ds H) as [?| ->]; [auto|right; now left].
      * injection Dk as <- <-. auto.
    + unfold receive_eof in Dk. destruct (feed_eof (m_reader m)) as [rd|x].
      * destruct (step_parser X _) as [m3 r3] eqn:Ds. injection Dk as <- <-. destruct (Sp _ _ _ _ Ds H) as [?| ->]; [auto|right; now left].
      * injection Dk as <- <-. auto.
Qed.

Lemma dead_was_raised {E} (X : ext_ops E) c0 ks m rs e :
  history X c0 ks m rs -> phase_of m = Dead (Some e) -> In (RRaise e) rs.
Proof.
  intros H P. unfold history in H. rewrite start_parse_body in H.
  destruct (exc_was_raised X ks _ _ _ e H) as [F|F]; [|discriminate F|exact F].
  unfold phase_of in P. destruct (m_parser m); [discriminate|congruence].
Qed.

(* The end of the stream is written at most once. *)
Theorem C13_eof_at_most_once :
  forall E (X : ext_ops E) c0 ks m rs st,
    fresh st c0 -> history X c0 ks m rs ->
    exists is, written (all_writes rs m) is /\
      forall pre post, is = pre ++ Eof :: post -> ~ In Eof pre /\ ~ In Eof post.
Proof.
  intros E X c0 ks m rs st F H.
  destruct (use_inv X c0 ks m rs H st inv_eof F) as (is & W & I).
  - unfold inv_eof. destruct F as (_ & _ & _ & _ & _ & Es & _). cbn [a_c a_is count_eof].
    change (0 = if c_eof_sent c0 then 1 else 0). now rewrite Es.
  - intros x y _. apply eof_step.
  - exists is. split; [exact W|]. intros pre post ->. unfold inv_eof in I. cbn [a_is] in I.
    rewrite count_eof_app in I. cbn [count_eof] in I. rewrite !count_eof_in.
    destruct (c_eof_sent _); lia.
Qed.

(* Nothing is written after the end of the stream, unless a call raised EOFError (because
   the peer's stream ended without a close frame, in the middle of a frame or because
   data was received after the end of the stream). *)
Theorem C13_eof_last_partial :
  forall E (X : ext_ops E) c0 ks m rs,
    fresh OPEN c0 -> history X c0 ks m rs -> ~ In (RRaise EOFError) rs ->
    exists is, written (all_writes rs m) is /\
      forall pre post, is = pre ++ Eof :: post -> post = [].
Proof.
  intros E X c0 ks m rs F H Ne.
  destruct (use_inv X c0 ks m rs H OPEN (fun a => inv_rcvd_open a /\ inv_eof a /\ inv_eof_last a) F) as (is & W & _ & _ & I).
  - destruct F as (_ & _ & _ & Cr & _ & Es & _). split; [|split].
    + intros _ Hc. change (c_close_rcvd c0 = true) in Hc. congruence.
    + unfold inv_eof. cbn [a_c a_is count_eof]. change (0 = if c_eof_sent c0 then 1 else 0). now rewrite Es.
    + left. split; [intros Hc; change (c_eof_sent c0 = true) in Hc; congruence|]. intros [|] post He; discriminate.
  - intros x y _ (I1 & I2 & I3) S. split; [eapply rcvd_open_step; eauto|]. split; [eapply eof_step; eauto|].
    eapply eof_last_step; eauto.
  - exists is. split; [exact W|]. destruct I as [[_ I]|I]; [exact I|].
    exfalso. apply Ne. eapply dead_was_raised; eassumption.
Qed.

(* Without this hypothesis it isn't true: when the peer's stream ends without a close frame,
   the end of the stream is written but the connection stays open, and can be written to. *)
Theorem C13_eof_last_refuted :
  exists ks m rs w, history no_ext ex_client ks m rs /\ all_writes rs m = [[]; w] /\ w <> [] /\
    c_state (m_conn m) = OPEN.
Proof.
  exists [CReceiveEof; CSendText (b "hi") true].
  destruct (by_running no_ext ex_client [CReceiveEof; CSendText (b "hi") true]
    (fun m rs => exists w, all_writes rs m = [[]; w] /\ w <> [] /\ c_state (m_conn m) = OPEN)) as (m & rs & H & w & P).
  - exists (bs [129; 130; 0; 1; 2; 3; 104; 104]%N). vm_compute. split; [reflexivity|]. split; [discriminate|reflexivity].
  - exists m, rs, w. split; [exact H|]. exact P.
Qed.

(* A server writes the end of the stream right after the close frame (unless it already
   has, because the stream ended). *)
Theorem C13_server_eof_follows_close :
  forall E (X : ext_ops E) c0 ks m rs st,
    fresh st c0 -> keeps_framing X -> c_side c0 = SERVER -> history X c0 ks m rs ->
    exists is, written (all_writes rs m) is /\
      forall pre f key post, is = pre ++ Sent f key :: post -> is_close f ->
        post = [Eof] \/ In Eof pre.
Proof.
  intros E X c0 ks m rs st F Kf Sv H.
  destruct (use_inv X c0 ks m rs H st (fun a => inv_close_sent a /\ inv_eof a /\ inv_server_eof a) F) as (is & W & _ & _ & I).
  - destruct F as (_ & _ & _ & Cr & _ & Es & _). split; [|split].
    + split; [intros I; inversion I|]. intros pre f k post He. destruct pre; discriminate.
    + unfold inv_eof. cbn [a_c a_is count_eof]. change (0 = if c_eof_sent c0 then 1 else 0). now rewrite Es.
    + intros _. split; [intros I; inversion I|]. intros pre f k post He. destruct pre; discriminate.
  - intros x y _ (I1 & I2 & I3) S. split; [eapply close_sent_step; eauto|]. split; [eapply eof_step; eauto|].
    eapply server_eof_step; eauto.
  - exists is. split; [exact W|]. apply I.
    destruct (use_steps X c0 ks m rs H st F) as (is' & _ & A). apply steps_const in A as (A & _). cbn [a_c] in A.
    change (c_side (core (m_conn m)) = SERVER). rewrite A. exact Sv.
Qed.

(* No call that receives data raised an exception. *)
Definition is_receive (k : call) : Prop := match k with CReceiveEof | CReceiveData _ => True | _ => False end.
Definition no_receive_raised (ks : list call) (rs : list ret) : Prop :=
  forall k e, In (k, RRaise e) (combine ks rs) -> ~ is_receive k.

Lemma still_alive {E} (X : ext_ops E) ks : forall m0 m rs, do_calls X m0 ks = (m, rs) ->
  no_receive_raised ks rs -> (exists g, m_parser m0 = PRun g) -> exists g, m_parser m = PRun g.
Proof.
  assert (Sp : forall m m', step_parser X m = (m', Ok tt) -> exists g, m_parser m' = PRun g).
  { intros m m'. rewrite step_parser_eq. destruct (m_parser m) as [g|]; [|discriminate].
    destruct (parse_all X g (m_reader m) (m_conn m)) as [[g' r' c'|a r' c'|x r' c']|]; try discriminate.
    - intros [= <-]. cbn. eauto.
    - destruct (close_code_for x) as [code reason]. destruct (fail_connection X code reason c') as [c'' [u|x']]; discriminate. }
  induction ks as [|k ks IH]; intros m0 m rs; cbn [do_calls].
  - intros [= <- <-]. auto.
  - destruct (do_call X m0 k) as [m1 r] eqn:Dk. destruct (do_calls X m1 ks) as [m2 rs2] eqn:Dks. intros [= <- <-] Nr Al.
    apply (IH m1 m2 rs2 Dks).
    { intros k0 e Hin. apply (Nr k0 e). now right. }
    assert (N0 : is_receive k -> forall e, r <> RRaise e).
    { intros Hk e ->. apply (Nr k e); [now left|exact Hk]. }
    destruct k; cbn [do_call] in Dk; unfold on_conn in Dk;
    try (match type of Dk with (let '(_, _) := ?t in _) = _ => destruct t end; injection Dk as <- <-; exact Al).
    + specialize (N0 I). unfold receive_data in Dk. destruct (feed_data (m_reader m0) data) as [rd|x].
      * destruct (step_parser X _) as [m3 [[]|e]] eqn:Ds; injection Dk as <- <-; [eauto|exfalso; eapply N0; reflexivity].
      * injection Dk as <- <-. exact Al.
    + specialize (N0 I). unfold receive_eof in Dk. destruct (feed_eof (m_reader m0)) as [rd|x].
      * destruct (step_parser X _) as [m3 [[]|e]] eqn:Ds; injection Dk as <- <-; [eauto|exfalso; eapply N0; reflexivity].
      * injection Dk as <- <-. exact Al.
Qed.

(* A client that doesn't fail the connection writes the end of the stream only after
   receiving the peer's. *)
Theorem C13_client_eof_after_peer :
  forall E (X : ext_ops E) c0 ks m rs st,
    fresh st c0 -> c_side c0 = CLIENT -> history X c0 ks m rs ->
    no_receive_raised ks rs ->
    exists is, written (all_writes rs m) is /\ (In Eof is -> In CReceiveEof ks).
Proof.
  intros E X c0 ks m rs st F Cl H Nr.
  destruct (use_inv X c0 ks m rs H st (fun a => inv_eof a /\ inv_client_eof (fun k => In k ks) a) F) as (is & W & Ie & I).
  - destruct F as (_ & _ & _ & Cr & _ & Es & _). split.
    + unfold inv_eof. cbn [a_c a_is count_eof]. change (0 = if c_eof_sent c0 then 1 else 0). now rewrite Es.
    + intros _ Hc. change (c_eof_sent c0 = true) in Hc. congruence.
  - intros x y _ (I1 & I2) S. split; [eapply eof_step; eauto|]. eapply client_eof_step; eauto.
  - exists is. split; [exact W|]. intros Hin. apply count_eof_in in Hin. unfold inv_eof in Ie. cbn [a_is a_c] in Ie.
    destruct I as [I|(e & I)].
    + destruct (use_steps X c0 ks m rs H st F) as (is' & _ & A). apply steps_const in A as (A & _). cbn [a_c] in A.
      cbn [a_c]. rewrite A. exact Cl.
    + cbn [a_c]. destruct (c_eof_sent (core (m_conn m))); [reflexivity|lia].
    + exact I.
    + exfalso. cbn [a_ph] in I. unfold history in H. rewrite start_parse_body in H.
      destruct (still_alive X ks _ _ _ H Nr) as [g Hg]; [cbn; eauto|]. unfold phase_of in I. rewrite Hg in I. discriminate.
Qed.

(* ex_client writes Eof as it receives Eof; a server with the same calls writes it as soon
   as it has replied to the close frame *)
Example C13_applies :
  (exists m rs, history no_ext ex_client ex_calls m rs /\ forallb (fun r => match r with RRaise _ => false | _ => true end) rs = true /\
    skipn 5 (all_writes rs m) = [[]]) /\
  (exists m rs, history no_ext ex_client (firstn 7 ex_calls) m rs /\ length (all_writes rs m) = 5) /\
  exists m rs, history no_ext ex_server [CSendClose None []] m rs /\ all_writes rs m = [bs [136; 0]%N; []].
Proof. split; [|split]; apply by_running; vm_compute; auto. Qed.

(* ---- C14 ---- *)

(* The pongs written are the answers to the pings delivered before a close frame, in order,
   when the application doesn't send pongs itself. *)
Theorem C14_pings_answered :
  forall E (X : ext_ops E) c0 ks m rs st,
    fresh st c0 -> keeps_framing X -> history X c0 ks m rs ->
    (forall data, ~ In (CSendPong data) ks) ->
    exists is, written (all_writes rs m) is /\
      pongs (sent_frames is) = pings_before_close (frames_of (all_events rs m)).
Proof.
  intros E X c0 ks m rs st F Kf H Np.
  destruct (use_inv X c0 ks m rs H st (fun a => inv_close_rcvd a /\ inv_pongs a) F) as (is & W & _ & I).
  - destruct F as (_ & _ & _ & Cr & _ & Es & _). split; [|reflexivity]. split; [intros I; inversion I|].
    split; [intros _ Hc; change (c_close_rcvd c0 = true) in Hc; congruence|]. intros pre f post He; destruct pre; discriminate.
  - intros x y _ (I1 & I2) S. split; [eapply close_rcvd_step; eauto|]. eapply (pongs_step X _ x y Kf Np); eauto.
  - exists is. split; [exact W|exact I].
Qed.

Example C14_applies : exists m rs, history no_ext ex_client ex_calls m rs /\
  pings_before_close (frames_of (all_events rs m)) = [b "ab"] /\
  nth 3 (all_writes rs m) [] = bs [138; 130; 3; 1; 2; 3; 98; 99]%N.
Proof. apply by_running. vm_compute. auto. Qed.

(* ---- C18 ---- *)

Definition stuck {E} (m : machine E) : Prop := r_eof (m_reader m) = true \/ m_parser m = PDead.
Definition drains (k : call) : Prop := match k with CEventsReceived | CDataToSend => True | _ => False end.

Lemma receive_stuck {E} (X : ext_ops E) m k m' r : is_receive k -> stuck m -> do_call X m k = (m', r) ->
  (exists e, r = RRaise e) /\ m_conn m' = m_conn m /\ stuck m'.
Proof.
  intros Hk S D. destruct k; try contradiction; cbn [do_call] in D;
  unfold receive_data, receive_eof, feed_data, feed_eof in D; destruct (r_eof (m_reader m)) eqn:Er;
  try (injection D as <- <-; split; [eauto|]; split; [reflexivity|]; left; exact Er);
  (destruct S as [S|S]; [congruence|]);
  unfold step_parser in D; cbn [m_parser m_exc m_conn] in D; rewrite S in D; injection D as <- <-;
  (split; [eauto|]); (split; [reflexivity|]); right; reflexivity.
Qed.

Lemma receive_raises_stuck {E} (X : ext_ops E) m k m' e : is_receive k -> do_call X m k = (m', RRaise e) -> stuck m'.
Proof.
  assert (Sp : forall m m' e, step_parser X m = (m', Raise e) -> m_parser m' = PDead).
  { intros m0 m1 e0. rewrite step_parser_eq. destruct (m_parser m0) as [g|] eqn:P; [|intros [= <- _]; exact P].
    destruct (parse_all_total X g (m_reader m0) (m_conn m0)) as [(g' & r' & c' & Hp)|(x & r' & c' & Hp)]; rewrite Hp; [discriminate|].
    destruct (close_code_for x) as [code reason]. destruct (fail_connection X code reason c') as [c'' [u|x']]; intros [= <- _]; reflexivity. }
  intros Hk D. destruct k; try contradiction; cbn [do_call] in D;
  unfold receive_data, receive_eof, feed_data, feed_eof in D; destruct (r_eof (m_reader m)) eqn:Er;
  try (injection D as <- _; left; exact Er);
  (destruct (step_parser X _) as [m3 [[]|e3]] eqn:Ds; [discriminate|]); injection D as <- <-; right; eapply Sp; exact Ds.
Qed.

Lemma other_stuck {E} (X : ext_ops E) m k m' r : ~ is_receive k -> do_call X m k = (m', r) ->
  (stuck m -> stuck m') /\ delivered_by r ++ c_events (m_conn m') = c_events (m_conn m).
Proof.
  assert (Sf : forall f (c : conn E), c_events (fst (send_frame X f c)) = c_events c).
  { intros f c. destruct (send_frame_step X f c) as [(exts & e & -> & _)|(f' & exts & w & -> & _)]; [reflexivity|].
    apply after_send_events. }
  assert (Me : forall f, meth_of X k = Some f -> forall c, c_events (fst (f c)) = c_events c).
  { intros f Hf c. destruct k; try discriminate; cbn in Hf; injection Hf as <-.
    - unfold send_continuation. destruct (negb _); [reflexivity|]. now rewrite Sf.
    - unfold send_text. destruct (c_expect_cont c); [reflexivity|]. now rewrite Sf.
    - unfold send_binary. destruct (c_expect_cont c); [reflexivity|]. now rewrite Sf.
    - unfold send_close. destruct (c_expect_cont c); [reflexivity|]. destruct (match code with None => _ | Some _ => _ end) as [d|e]; [|reflexivity].
      unfold mseq at 1. pose proof (Sf (mkframe true CLOSE d) c) as S1. destruct (send_frame X (mkframe true CLOSE d) c) as [c1 [u|e]]; [|exact S1].
      cbn [fst] in S1. unfold start_closing, mseq, mupd, mret, send_eof. cbn [c_side set_state].
      destruct (is_server (c_side c1)); [|exact S1]. cbn [c_eof_sent set_state]. destruct (c_eof_sent c1); exact S1.
    - apply Sf.
    - apply Sf. }
  intros Hk D. assert (On : forall f, meth_of X k = Some f -> on_conn m f = (m', r) ->
     (stuck m -> stuck m') /\ delivered_by r ++ c_events (m_conn m') = c_events (m_conn m)).
  { intros f Hf Ho. specialize (Me f Hf (m_conn m)). unfold on_conn in Ho. destruct (f (m_conn m)) as [c' [u|e]];
    injection Ho as <- <-; split; auto. }
  destruct k; try (exfalso; apply Hk; exact I); cbn [do_call] in D;
  try (eapply On; [reflexivity|exact D]);
  unfold events_received, data_to_send in D; injection D as <- <-; split; auto. cbn. apply app_nil_r.
Qed.

(* After a receive call raised, every later receive call raises, no event is ever delivered,
   and receive calls write nothing: whatever is written is written by other calls. *)
Theorem C18_errors_are_sticky :
  forall E (X : ext_ops E) c0 ks m rs k e,
    history X c0 ks m rs -> In (k, RRaise e) (combine ks rs) -> is_receive k ->
    forall ks' m' rs', do_calls X m ks' = (m', rs') ->
      (forall k' r', In (k', r') (combine ks' rs') -> is_receive k' -> exists e', r' = RRaise e') /\
      all_events (rs ++ rs') m' = all_events rs m /\
      (Forall (fun k' => is_receive k' \/ drains k') ks' ->
       all_writes (rs ++ rs') m' = all_writes rs m /\ c_state (m_conn m') = c_state (m_conn m)).
Proof.
  intros E X c0 ks m rs k e H Hin Hk.
  assert (St : stuck m).
  { unfold history in H. revert H Hin. generalize (start X (parse_body X) c0). clear c0. revert m rs.
    induction ks as [|k1 ks IH]; intros m rs m0; cbn [do_calls].
    - intros [= <- <-]. contradiction.
    - destruct (do_call X m0 k1) as [m1 r1] eqn:D1. destruct (do_calls X m1 ks) as [m2 rs2] eqn:D2. intros [= <- <-] [Hin|Hin].
      + injection Hin as -> ->. apply receive_raises_stuck in D1; [|exact Hk].
        clear -D1 D2. revert m1 m2 rs2 D1 D2. induction ks as [|k1 ks IH]; intros m1 m2 rs2 S; cbn [do_calls].
        * intros [= <- _]. exact S.
        * destruct (do_call X m1 k1) as [m3 r3] eqn:D3. destruct (do_calls X m3 ks) as [m4 rs4] eqn:D4. intros [= <- _].
          eapply IH; [|exact D4].
          assert (Dec : is_receive k1 \/ ~ is_receive k1) by (destruct k1; cbn; tauto). destruct Dec as [R1|R1].
          -- apply (receive_stuck X m1 k1 m3 r3 R1 S D3).
          -- apply (other_stuck X m1 k1 m3 r3 R1 D3), S.
      + eapply IH; eauto. }
  clear c0 H Hin. intros ks' m' rs' D. unfold all_events, all_writes. rewrite !flat_map_app, <- !app_assoc.
  assert (G : (forall k' r', In (k', r') (combine ks' rs') -> is_receive k' -> exists e', r' = RRaise e') /\
     flat_map delivered_by rs' ++ c_events (m_conn m') = c_events (m_conn m) /\
     (Forall (fun k' => is_receive k' \/ drains k') ks' ->
      flat_map written_by rs' ++ c_writes (m_conn m') = c_writes (m_conn m) /\ c_state (m_conn m') = c_state (m_conn m))).
  2: { destruct G as (G1 & G2 & G3). split; [exact G1|]. split; [now rewrite G2|]. intros Hf. destruct (G3 Hf) as [-> ->]. auto. }
  clear ks rs k e Hk. revert m St m' rs' D. induction ks' as [|k1 ks IH]; intros m St m' rs'; cbn [do_calls].
  - intros [= <- <-]. split; [intros k' r' []|]. split; [reflexivity|]. auto.
  - destruct (do_call X m k1) as [m1 r1] eqn:D1. destruct (do_calls X m1 ks) as [m2 rs2] eqn:D2. intros [= <- <-].
    assert (Dec : is_receive k1 \/ ~ is_receive k1) by (destruct k1; cbn; tauto). destruct Dec as [R1|R1].
    + destruct (receive_stuck X m k1 m1 r1 R1 St D1) as ((e1 & ->) & Ec & St1).
      destruct (IH m1 St1 m2 rs2 D2) as (I1 & I2 & I3). split; [|split].
      * intros k' r' [Hin|Hin] Hr; [injection Hin as <- <-; eauto|eauto].
      * cbn [flat_map delivered_by app]. congruence.
      * intros Hf. inversion Hf; subst. cbn [flat_map written_by app]. rewrite <- Ec. auto.
    + destruct (other_stuck X m k1 m1 r1 R1 D1) as (St1 & Ee). specialize (St1 St).
      destruct (IH m1 St1 m2 rs2 D2) as (I1 & I2 & I3). split; [|split].
      * intros k' r' [Hin|Hin] Hr; [injection Hin as <- <-; contradiction|eauto].
      * cbn [flat_map]. rewrite <- app_assoc, I2. exact Ee.
      * intros Hf. inversion Hf as [|? ? Hd Hf']; subst. destruct Hd as [Hd|Hd]; [contradiction|].
        destruct (I3 Hf') as [I4 I5]. cbn [flat_map]. rewrite <- app_assoc, I4.
        destruct k1; try contradiction; cbn in D1; injection D1 as <- <-; cbn; auto using app_nil_r.
Qed.

Example C18_applies : exists m rs, history no_ext ex_client [CReceiveData (bs [137; 128]%N)] m rs /\
  rs = [RRaise (ProtocolError (s "incorrect masking"))] /\
  snd (do_calls no_ext m [CReceiveData (bs [129; 0]%N); CSendText [] true; CEventsReceived]) =
    [RRaise RuntimeError; RRaise (InvalidState (s "cannot write to a WebSocket in the CLOSING state")); REvents []].
Proof. apply by_running. vm_compute. auto. Qed.

(* ---- C19 ---- *)

Theorem C19_no_data_after_close :
  forall E (X : ext_ops E) c0 ks m rs st,
    fresh st c0 -> history X c0 ks m rs ->
    forall pre f post, frames_of (all_events rs m) = pre ++ f :: post -> is_close f ->
      forall g, In g post -> ~ is_data g.
Proof.
  intros E X c0 ks m rs st F H.
  destruct (use_inv X c0 ks m rs H st inv_close_rcvd F) as (is & W & _ & _ & I).
  - destruct F as (_ & _ & _ & Cr & _ & Es & _). split; [intros I; inversion I|].
    split; [intros _ Hc; change (c_close_rcvd c0 = true) in Hc; congruence|]. intros pre f post He; destruct pre; discriminate.
  - intros x y _ I1 S. eapply close_rcvd_step; eauto.
  - intros pre f post He Hf g Hg Hd. apply is_data_iff in Hd.
    assert (In g (data_frames post)) as Hin by (apply filter_In; auto).
    rewrite (I pre f post He Hf) in Hin. exact Hin.
Qed.

(* pings are still delivered after the close frame; data frames aren't *)
Example C19_applies :
  exists m rs, history no_ext ex_client [CReceiveData (bs [0x81; 0; 0x88; 0; 0x89; 0; 0x81; 0])]%N m rs /\
    map f_opcode (frames_of (all_events rs m)) = [TEXT; CLOSE; PING].
Proof. apply by_running. vm_compute. reflexivity. Qed.

(* ---- C20 ---- *)

Theorem C20_state_moves_forward :
  forall E (X : ext_ops E) c0 ks m rs ks' m' rs' st,
    fresh st c0 -> history X c0 ks m rs -> do_calls X m ks' = (m', rs') ->
    (rank (c_state (m_conn m)) <= rank (c_state (m_conn m')))%nat.
Proof.
  intros E X c0 ks m rs ks' m' rs' st (_ & _ & _ & _ & _ & _ & He & Hw & _) H D.
  destruct (resume X c0 ks m rs ks' m' rs' He Hw H D) as (is & l & l' & _ & _ & _ & A).
  apply (asteps_inv X (fun k => In k ks') (fun a => rank (c_state (m_conn m)) <= rank (c_state (a_c a)))) in A; [exact A|apply le_n|].
  intros x y I S. apply rank_step in S. lia.
Qed.

Example C20_applies : exists m rs, history no_ext ex_client ex_calls m rs /\ c_state (m_conn m) = CLOSING.
Proof. apply by_running. vm_compute. reflexivity. Qed.

(* ---- C21 ---- *)

(* The n-th frame a client writes is masked with the n-th key drawn, and no key is drawn
   for another purpose; a server masks no frame. *)
Theorem C21_masking :
  forall E (X : ext_ops E) c0 ks m rs st,
    fresh st c0 -> history X c0 ks m rs ->
    exists is, written (all_writes rs m) is /\
      match c_side c0 with
      | CLIENT => c_draws (m_conn m) = length (sent_frames is) /\
          forall n f key, nth_error (filter (fun i => match i with Sent _ _ => true | Eof => false end) is) n = Some (Sent f key) ->
            key = Some (key_of (c_keys c0 n))
      | SERVER => forall f key, In (Sent f key) is -> key = None
      end.
Proof.
  intros E X c0 ks m rs st F H.
  destruct (use_inv X c0 ks m rs H st inv_keys F) as (is & W & I).
  - destruct F as (_ & _ & _ & _ & _ & _ & _ & _ & Dr). unfold inv_keys. cbn [a_c a_is].
    change (c_draws (core c0)) with (c_draws c0). rewrite Dr. destruct (is_client _); [split; reflexivity|intros k []].
  - intros x y _ I1 S. eapply keys_step; eauto.
  - exists is. split; [exact W|]. unfold inv_keys in I. cbn [a_c a_is] in I.
    destruct (use_steps X c0 ks m rs H st F) as (is' & _ & A). apply steps_const in A as (A & _ & A' & _). cbn [a_c] in A, A'.
    rewrite A in I. rewrite A' in I. change (c_side (core c0)) with (c_side c0) in I. change (c_keys (core c0)) with (c_keys c0) in I.
    change (c_draws (core (m_conn m))) with (c_draws (m_conn m)) in I.
    assert (Lk : length (masking_keys is) = length (sent_frames is)).
    { clear. induction is as [|[|f k] is IH]; simpl; auto. }
    destruct (c_side c0); cbn [is_client] in I.
    + intros f key Hin. apply I. apply in_flat_map. exists (Sent f key). split; [exact Hin|]. now left.
    + destruct I as [I1 I2]. rewrite Lk in I1. split; [exact I1|]. intros n f key Hn.
      assert (Nk : nth_error (masking_keys is) n = Some key).
      { clear -Hn. revert n Hn. induction is as [|[|g k] is IH]; intros n Hn; simpl in *.
        - destruct n; discriminate.
        - auto.
        - destruct n as [|n]; simpl in *; [congruence|auto]. }
      rewrite I2 in Nk. rewrite nth_error_map in Nk.
      destruct (nth_error (seq 0 (c_draws (m_conn m))) n) as [x|] eqn:Sx; [|discriminate]. cbn in Nk.
      assert (n < length (seq 0 (c_draws (m_conn m)))) as Ln by (apply nth_error_Some; congruence). rewrite seq_length in Ln.
      apply nth_error_nth with (d := 0%nat) in Sx. rewrite seq_nth in Sx by lia. simpl in Sx. subst x. congruence.
Qed.

Example C21_applies : exists m rs, history no_ext ex_client ex_calls m rs /\
  c_draws (m_conn m) = 5 /\ map (firstn 4) (map (skipn 2) (firstn 5 (all_writes rs m))) =
    map (fun i => key_bytes (ex_keys i)) [0; 1; 2; 3; 4].
Proof. apply by_running. vm_compute. auto. Qed.

Print Assumptions C07_chunking_irrelevant.
Print Assumptions C09_message_size.
Print Assumptions C10_delivered_messages.
Print Assumptions C10_close_between_messages.
Print Assumptions C11_sent_messages.
Print Assumptions C11_only_in_order.
Print Assumptions C12_close_frame_once_and_last.
Print Assumptions C13_eof_at_most_once.
Print Assumptions C13_eof_last_partial.
Print Assumptions C13_eof_last_refuted.
Print Assumptions C13_server_eof_follows_close.
Print Assumptions C13_client_eof_after_peer.
Print Assumptions C14_pings_answered.
Print Assumptions C18_errors_are_sticky.
Print Assumptions C19_no_data_after_close.
Print Assumptions C20_state_moves_forward.
Print Assumptions C21_masking.
