(* C91: two sans-I/O connections, each of which receives what the other one writes. *)
From Verif Require Import Base.Prelude Base.PreludeFacts Model.Utils Model.Streams Model.Frames
  Model.Http11 Model.Connection Spec.Rfc6455 Spec.FrameSpec Spec.Messages Spec.History Spec.Endpoints
  Proofs.ConnectionFacts Proofs.Steps Proofs.MessagesFacts Properties.FrameCodec Properties.Connection Properties.Closing
  Proofs.SansIoEnds Proofs.SansIoSends Proofs.EndpointsFacts.

(** Connections without extensions *)
Notation in_use := (in_use no_ext (2 ^ 64)).
Notation receives_from := (receives_from no_ext).
Lemma no_ext_framing : keeps_framing no_ext.
Proof. split; intros []. Qed.
Lemma empty_exts (exts : list Empty_set) : exts = [].
Proof. now destruct exts as [|[]]. Qed.
Lemma no_ext_plain exts : plain_ctrl no_ext exts.
Proof. intros f _. now rewrite (empty_exts exts). Qed.
Definition unchanged (ps : list (frame * frame)) : Prop := Forall (fun p => snd p = fst p) ps.
Lemma unchanged_enc (ps : list (frame * frame)) (exts : list Empty_set) f (done : list (list frame)) (cur : list frame) :
  unchanged ps -> check f = Ok tt -> is_data_b f = true -> (lenN (f_data f) < 2 ^ 64)%N ->
  message_sequence (map fst ps) done cur -> next_ok cur f ->
  exists exts' g, encode_in_order no_ext exts f = (exts', Ok g) /\ (lenN (f_data g) < 2 ^ 64)%N /\
    f_opcode g = f_opcode f /\ f_fin g = f_fin f /\ unchanged (ps ++ [(f, g)]).
Proof.
  intros U _ _ L _ _. exists [], f. rewrite (empty_exts exts). split; [reflexivity|]. split; [exact L|]. split; [reflexivity|]. split; [reflexivity|].
  apply Forall_app. split; [exact U|]. constructor; [reflexivity|constructor].
Qed.
Lemma unchanged_ctl (ps : list (frame * frame)) (exts : list Empty_set) :
  unchanged ps -> forall f, is_ctrl (f_opcode f) = true -> check f = Ok tt -> unchanged (ps ++ [(f, f)]).
Proof. intros U f _ _. apply Forall_app. split; [exact U|]. constructor; [reflexivity|constructor]. Qed.
Lemma no_ext_linkable sender receiver : linkable no_ext (2 ^ 64) sender receiver.
Proof.
  exists (fun ps _ => unchanged ps), (fun _ _ => True). split; [split; [|split; [|split]]|split; [|split]].
  - constructor.
  - exact unchanged_enc.
  - exact unchanged_ctl.
  - auto.
  - exact Logic.I.
  - intros ps exts l f g l' exts1 n U -> _ _. exists []. apply Forall_app in U as [_ U]. inversion U as [|? ? Q _]. cbn [fst snd] in Q. subst g.
    rewrite (empty_exts exts1). split; [reflexivity|exact Logic.I].
  - auto.
Qed.
Lemma ends_connected (e o : endpoint Empty_set) : connected no_ext (2 ^ 64) e o.
Proof. apply no_ext_linkable. Qed.
Lemma sent_unchanged (o : endpoint Empty_set) fs gs : in_use o -> sent_by o fs gs -> gs = fs.
Proof.
  intros U S. destruct (sender no_ext (2 ^ 64) no_ext_plain o (fun ps _ => unchanged ps) U) with (fs := fs) (gs := gs) as (ps & -> & Ss).
  - constructor.
  - exact unchanged_enc.
  - exact unchanged_ctl.
  - auto.
  - exact S.
  - rewrite <- (ss_written _ _ _ _ _ Ss). pose proof (ss_enc _ _ _ _ _ Ss) as En. cbn beta in En.
    clear -En. induction En as [|p ps H _ IH]; [reflexivity|]. cbn [map]. now rewrite H, IH.
Qed.

(* Whatever the two ends do, the frames that one of them sends are reported by the other one, in order, and make
   none of its calls to receive_data() fail; once everything was received, all are reported. *)
Theorem C91_no_failure :
  forall e o fs gs rest, in_use e -> in_use o -> receives_from e o fs gs rest ->
    gs = fs /\ no_failure (e_calls e) (e_returned e) /\
    exists later, fs = reported e ++ later /\ (rest = [] -> later = []).
Proof.
  intros e o fs gs rest Ue Uo R. split; [exact (sent_unchanged o fs gs Uo (rf_sent _ _ _ _ _ _ R))|].
  exact (no_failures no_ext (2 ^ 64) no_ext_framing no_ext_plain e o fs gs rest Ue Uo (ends_connected e o) R).
Qed.

(* In particular, the data frames reported are those given to send_text(), send_binary() and send_continuation(). *)
Theorem C91_data :
  forall e o fs gs rest, in_use e -> in_use o -> receives_from e o fs gs rest ->
    exists later, data_sent o = data_frames (reported e) ++ later /\ (rest = [] -> later = []).
Proof.
  intros e o fs gs rest Ue Uo R.
  exact (data_received no_ext (2 ^ 64) no_ext_framing no_ext_plain e o fs gs rest Ue Uo (ends_connected e o) R).
Qed.

(* When one of the ends has sent a close frame, and each end has received all that the other one wrote, the closing
   handshake is complete: each end has sent one close frame and received one, and nothing failed.
   The close code and reason of each end are those of the close frame that the other one sent.
   Then each of them accepts the end of the stream, and has signalled it. *)
Theorem C91_closing_handshake :
  forall a b fa ga fb gb, in_use a -> in_use b -> receives_from b a fa ga [] -> receives_from a b fb gb [] ->
    (exists f, (In f fa \/ In f fb) /\ is_close f) ->
    (no_failure (e_calls a) (e_returned a) /\ no_failure (e_calls b) (e_returned b)) /\
    (reported a = fb /\ reported b = fa) /\
    (c_state (m_conn (e_state a)) = CLOSING /\ c_state (m_conn (e_state b)) = CLOSING) /\
    (exists f code reason, In f fa /\ is_close f /\ parse_close (f_data f) = Ok (code, reason) /\
       close_code b = Some code /\ close_reason b = Some reason) /\
    (exists f code reason, In f fb /\ is_close f /\ parse_close (f_data f) = Ok (code, reason) /\
       close_code a = Some code /\ close_reason a = Some reason) /\
    forall e, e = a \/ e = b ->
      exists m', do_call no_ext (e_state e) CReceiveEof = (m', RNone) /\ c_eof_sent (m_conn m') = true /\
        c_close_code (m_conn m') = close_code e /\ c_close_reason (m_conn m') = close_reason e.
Proof.
  intros a b fa ga fb gb Ua Ub Rb Ra.
  exact (closing_handshake no_ext (2 ^ 64) no_ext_framing no_ext_plain a b fa ga fb gb Ua Ub (ends_connected b a) (ends_connected a b) Rb Ra).
Qed.

(* When one end calls send_close() and the other one doesn't, both ends have the code and the reason given. *)
Theorem C91_same_code :
  forall a b fa ga fb gb code reason, in_use a -> in_use b -> receives_from b a fa ga [] -> receives_from a b fb gb [] ->
    called_send_close a code reason -> (forall code' reason', ~ In (CSendClose code' reason') (e_calls b)) ->
    close_code a = Some (code_received code) /\ close_reason a = Some reason /\
    close_code b = Some (code_received code) /\ close_reason b = Some reason.
Proof.
  intros a b fa ga fb gb code reason Ua Ub Rb Ra.
  exact (same_code no_ext (2 ^ 64) no_ext_framing no_ext_plain a b fa ga fb gb code reason Ua Ub (ends_connected b a) (ends_connected a b) Rb Ra).
Qed.

(** A client sends a text message, then calls send_close(1000, "bye"); the server receives that in two chunks. *)
Definition bytes_to_server : bytes := Eval vm_compute in
  concat (wrote (endpoint_of no_ext ex_client [CSendText (b "Hi") true; CSendClose (Some 1000%Z) (s "bye")])).
Definition ex_b : endpoint Empty_set := endpoint_of no_ext ex_server [CReceiveData (firstn 5 bytes_to_server); CEventsReceived; CReceiveData (skipn 5 bytes_to_server)].
Definition bytes_to_client : bytes := Eval vm_compute in concat (wrote ex_b).
Definition ex_a : endpoint Empty_set := endpoint_of no_ext ex_client [CSendText (b "Hi") true; CSendClose (Some 1000%Z) (s "bye"); CReceiveData bytes_to_client].
Definition ex_bye : bytes := Eval vm_compute in match serialize_close 1000 (s "bye") with Ok d => d | _ => [] end.
Definition ex_fa : list frame := [mkframe true TEXT (b "Hi"); mkframe true CLOSE ex_bye].
Definition ex_fb : list frame := [mkframe true CLOSE ex_bye].

Example ex_b_sent : sent_by ex_b ex_fb ex_fb.
Proof.
  eapply sent_of; [vm_compute; reflexivity| |vm_compute; reflexivity| |].
  - eapply (written_item false (n2b 0) (n2b 0) (n2b 0) (n2b 0) (mkframe true CLOSE ex_bye)); [vm_compute; reflexivity|].
    apply Forall2_cons with (y := Eof); [reflexivity|apply Forall2_nil].
  - reflexivity.
  - reflexivity.
Qed.
Example ex_a_sent : sent_by ex_a ex_fa ex_fa.
Proof.
  eapply sent_of; [vm_compute; reflexivity| |vm_compute; reflexivity| |].
  - eapply (written_item true (n2b 0) (n2b 1) (n2b 2) (n2b 3) (mkframe true TEXT (b "Hi"))); [vm_compute; reflexivity|].
    eapply (written_item true (n2b 1) (n2b 1) (n2b 2) (n2b 3) (mkframe true CLOSE ex_bye)); [vm_compute; reflexivity|].
    apply Forall2_nil.
  - reflexivity.
  - reflexivity.
Qed.
Example C91_applies : in_use ex_a /\ in_use ex_b /\ receives_from ex_b ex_a ex_fa ex_fa [] /\ receives_from ex_a ex_b ex_fb ex_fb [] /\
  called_send_close ex_a (Some 1000%Z) (s "bye") /\ (forall code' reason', ~ In (CSendClose code' reason') (e_calls ex_b)) /\
  close_code ex_a = Some 1000%Z /\ close_reason ex_b = Some (s "bye") /\ data_sent ex_a = [mkframe true TEXT (b "Hi")].
Proof.
  split. { apply in_use_of; [exact ex_client_fresh| |repeat constructor]. intros [H|[H|[H|[]]]]; discriminate H. }
  split. { apply in_use_of; [repeat split| |repeat constructor]. intros [H|[H|[H|[]]]]; discriminate H. }
  split.
  { split.
    - discriminate.
    - vm_compute. reflexivity.
    - exact ex_a_sent.
    - apply small_enough. vm_compute. discriminate.
    - intros before f later H Hc. destruct before as [|x [|y before]]; [injection H as <- _; discriminate Hc| |injection H as _ _ H; destruct before; discriminate H].
      injection H as <- _ _.
      exists [[mkframe true TEXT (b "Hi")]]. split; [reflexivity|]. split; [|now left]. constructor; [|constructor]. left.
      exists (mkframe true TEXT (b "Hi")). split; [reflexivity|]. split; [now left|reflexivity].
    - apply no_pings. repeat constructor; discriminate. }
  split.
  { split.
    - discriminate.
    - vm_compute. reflexivity.
    - exact ex_b_sent.
    - apply small_enough. vm_compute. discriminate.
    - intros before f later H Hc. destruct before as [|x before]; [|injection H as _ H; destruct before; discriminate H].
      exists []. apply message_sequence_nil.
    - apply no_pings. repeat constructor; discriminate. }
  split. { right. left. vm_compute. reflexivity. }
  split. { intros code reason [H|[H|[H|[]]]]; discriminate H. }
  split; [vm_compute; reflexivity|]. split; vm_compute; reflexivity.
Qed.

(** The condition about pings cannot be dropped: when a ping is received after send_close(), the connection attempts to
    send a pong, which isn't possible any more, and receive_data() raises InvalidState. *)
Definition ping_bytes : bytes := Eval vm_compute in concat (wrote (endpoint_of no_ext ex_client [CSendPing (b "?")])).
Theorem C91_ping_refuted : exists (e o : endpoint Empty_set) fs, in_use e /\ in_use o /\
  c_side (e_conn e) <> c_side (e_conn o) /\ received_data (e_calls e) = concat (wrote o) /\ sent_by o fs fs /\
  within_limit (c_max_size (e_conn e)) fs fs /\ close_between_messages fs /\
  ~ no_failure (e_calls e) (e_returned e).
Proof.
  exists (endpoint_of no_ext ex_server [CSendClose None []; CReceiveData ping_bytes]), (endpoint_of no_ext ex_client [CSendPing (b "?")]), [mkframe true PING (b "?")].
  split. { apply in_use_of; [repeat split| |repeat constructor]. intros [H|[H|[]]]; discriminate H. }
  split. { apply in_use_of; [exact ex_client_fresh| |repeat constructor]. intros [H|[]]; discriminate H. }
  split; [discriminate|]. split; [vm_compute; reflexivity|]. split.
  { eapply sent_of; [vm_compute; reflexivity| |vm_compute; reflexivity| |].
    - eapply (written_item true (n2b 0) (n2b 1) (n2b 2) (n2b 3) (mkframe true PING (b "?"))); [vm_compute; reflexivity|]. apply Forall2_nil.
    - reflexivity.
    - reflexivity. }
  split. { apply small_enough. vm_compute. discriminate. }
  split. { intros before f later H Hc. destruct before as [|x before]; [|injection H as _ H; destruct before; discriminate H]. injection H as <- _. discriminate Hc. }
  intros H. unfold no_failure in H.
  assert (G : forall k1 k2 rs d, Forall2 (fun k r => forall d, k = CReceiveData d -> r = RNone) [k1; k2] rs -> k2 = CReceiveData d -> nth 1 rs RNone = RNone).
  { intros k1 k2 rs d F E. inversion F as [|? ? ? ? _ F' Q1 Q2]; subst. inversion F' as [|? ? ? ? F2 F3 Q1 Q2]; subst. exact (F2 d eq_refl). }
  specialize (G _ _ _ _ H eq_refl). vm_compute in G. discriminate G.
Qed.

Print Assumptions C91_no_failure.
Print Assumptions C91_data.
Print Assumptions C91_closing_handshake.
Print Assumptions C91_same_code.
Print Assumptions C91_ping_refuted.
