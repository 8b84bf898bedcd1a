(* C92: two sans-I/O connections with permessage-deflate, each of which receives what the other one writes. *)
From Verif Require Import Base.Prelude Base.PreludeFacts Model.Utils Model.Streams Model.Frames
  Model.Http11 Model.Connection Model.PermessageDeflate Spec.Rfc6455 Spec.FrameSpec Spec.Messages Spec.History Spec.Deflate
  Spec.Negotiated Spec.Endpoints Spec.CompressedEndpoints Proofs.ConnectionFacts Proofs.Steps Proofs.MessagesFacts Proofs.DeflateFacts
  Proofs.DeflateRun Proofs.StoredZlib Properties.FrameCodec Properties.Connection Properties.Closing Properties.Deflate
  Proofs.SansIoEnds Proofs.SansIoSends Proofs.EndpointsFacts Proofs.DeflateEnds.

(* zlib may make data longer: the wire format can represent the length of what it returns if the data is smaller than this *)
Notation in_use zl := (in_use (pmd_ops zl) (2 ^ 59)).
Notation receives_from zl := (receives_from (pmd_ops zl)).

Lemma pair_linkable {zl} (p q : pmd zl) : good_zlib zl -> ready p -> ready q -> mirrored p q ->
  linkable (pmd_ops zl) (2 ^ 59) [p] [q].
Proof.
  intros (sync & Zc & Ex & Cd) (rn & ln & rb & lb & st & Pa & Ca) (rn' & ln' & rb' & lb' & st' & Pb & Cb) Mi.
  apply (pmd_linkable sync Zc Ex). exact (init_linked sync Zc _ _ _ _ _ _ _ _ _ _ _ _ Pa Pb Mi Ca Cd).
Qed.
Lemma mirrored_sym {zl} (p q : pmd zl) : mirrored p q -> mirrored q p.
Proof. intros (M1 & M2 & M3 & M4). split; [congruence|]. split; [congruence|]. split; congruence. Qed.
Lemma none_linkable {zl} : linkable (pmd_ops zl) (2 ^ 59) [] [].
Proof.
  exists (fun ps exts => exts = [] /\ Forall (fun fg => snd fg = fst fg) ps), (fun _ exts => exts = []). split; split; auto.
  - split; [|split].
    + intros ps exts f done cur [-> F] _ _ Hs _ _. exists [], f. split; [reflexivity|]. split; [|split; [reflexivity|split; [reflexivity|]]].
      * eapply N.lt_trans; [exact Hs|reflexivity].
      * split; [reflexivity|]. apply Forall_app. split; [exact F|]. now constructor.
    + intros ps exts [-> F] f _ _. split; [reflexivity|]. apply Forall_app. split; [exact F|]. now constructor.
    + intros ps exts g n exts' r [-> F] H. apply pair_equal_spec in H as [<- _]. auto.
  - split.
    + intros ps exts l f g l' exts1 n [_ F] -> -> _. apply Forall_app in F as [_ F]. apply Forall_inv in F. cbn [fst snd] in F. subst g.
      exists []. split; reflexivity.
    + intros l exts f exts' r -> H. apply pair_equal_spec in H as [<- _]. reflexivity.
Qed.
Lemma both_connected {zl} (a b : endpoint (pmd zl)) : good_zlib zl -> negotiated a b ->
  connected (pmd_ops zl) (2 ^ 59) b a /\ connected (pmd_ops zl) (2 ^ 59) a b.
Proof.
  intros Gz [(Ha & Hb)|(p & q & Ha & Hb & Pa & Pb & Mi)]; unfold connected; rewrite Ha, Hb; split; try apply none_linkable;
    apply pair_linkable; auto using mirrored_sym.
Qed.

(* Whatever the two ends do, the frames that one of them sends are reported by the other one, in order, as they were
   before they were compressed, and make none of its calls to receive_data() fail; once everything was received, all
   are reported. *)
Theorem C92_no_failure :
  forall zl (e o : endpoint (pmd zl)) fs gs rest, good_zlib zl -> negotiated e o -> in_use zl e -> in_use zl o -> receives_from zl e o fs gs rest ->
    no_failure (e_calls e) (e_returned e) /\
    exists later, fs = reported e ++ later /\ (rest = [] -> later = []).
Proof.
  intros zl e o fs gs rest Gz Bc Ue Uo R. destruct (both_connected e o Gz Bc) as (_ & C).
  exact (no_failures (pmd_ops zl) (2 ^ 59) pmd_keeps_framing pmd_plain e o fs gs rest Ue Uo C R).
Qed.

(* In particular, the data frames reported are those given to send_text(), send_binary() and send_continuation(). *)
Theorem C92_data :
  forall zl (e o : endpoint (pmd zl)) fs gs rest, good_zlib zl -> negotiated e o -> in_use zl e -> in_use zl o -> receives_from zl e o fs gs rest ->
    exists later, data_sent o = data_frames (reported e) ++ later /\ (rest = [] -> later = []).
Proof.
  intros zl e o fs gs rest Gz Bc Ue Uo R. destruct (both_connected e o Gz Bc) as (_ & C).
  exact (data_received (pmd_ops zl) (2 ^ 59) pmd_keeps_framing pmd_plain e o fs gs rest Ue Uo C R).
Qed.

(* The closing handshake, as in C91. *)
Theorem C92_closing_handshake :
  forall zl (a b : endpoint (pmd zl)) fa ga fb gb, good_zlib zl -> negotiated a b -> in_use zl a -> in_use zl b ->
    receives_from zl b a fa ga [] -> receives_from zl a b fb gb [] ->
    (exists f, (In f fa \/ In f fb) /\ is_close f) ->
    (no_failure (e_calls a) (e_returned a) /\ no_failure (e_calls b) (e_returned b)) /\
    (reported a = fb /\ reported b = fa) /\
    (c_state (m_conn (e_state a)) = CLOSING /\ c_state (m_conn (e_state b)) = CLOSING) /\
    (exists f code reason, In f fa /\ is_close f /\ parse_close (f_data f) = Ok (code, reason) /\
       close_code b = Some code /\ close_reason b = Some reason) /\
    (exists f code reason, In f fb /\ is_close f /\ parse_close (f_data f) = Ok (code, reason) /\
       close_code a = Some code /\ close_reason a = Some reason) /\
    forall e, e = a \/ e = b ->
      exists m', do_call (pmd_ops zl) (e_state e) CReceiveEof = (m', RNone) /\ c_eof_sent (m_conn m') = true /\
        c_close_code (m_conn m') = close_code e /\ c_close_reason (m_conn m') = close_reason e.
Proof.
  intros zl a b fa ga fb gb Gz Bc Ua Ub Rb Ra. destruct (both_connected a b Gz Bc) as (C1 & C2).
  exact (closing_handshake (pmd_ops zl) (2 ^ 59) pmd_keeps_framing pmd_plain a b fa ga fb gb Ua Ub C1 C2 Rb Ra).
Qed.

(* When one end calls send_close() and the other one doesn't, both ends have the code and the reason given. *)
Theorem C92_same_code :
  forall zl (a b : endpoint (pmd zl)) fa ga fb gb code reason, good_zlib zl -> negotiated a b -> in_use zl a -> in_use zl b ->
    receives_from zl b a fa ga [] -> receives_from zl a b fb gb [] ->
    called_send_close a code reason -> (forall code' reason', ~ In (CSendClose code' reason') (e_calls b)) ->
    close_code a = Some (code_received code) /\ close_reason a = Some reason /\
    close_code b = Some (code_received code) /\ close_reason b = Some reason.
Proof.
  intros zl a b fa ga fb gb code reason Gz Bc Ua Ub Rb Ra. destruct (both_connected a b Gz Bc) as (C1 & C2).
  exact (same_code (pmd_ops zl) (2 ^ 59) pmd_keeps_framing pmd_plain a b fa ga fb gb code reason Ua Ub C1 C2 Rb Ra).
Qed.

(** A client sends a text message in two fragments, then calls send_close(1000, "bye"); the server receives that in two
    chunks. *)
Definition ex_X := pmd_ops stored_zlib.
Definition ex_client_pmd : pmd stored_zlib :=
  match pmd_init (zl := stored_zlib) true false 15 12 None with Ok p => p | Raise _ => ex_pmd end.
Definition ex_server_pmd : pmd stored_zlib :=
  match pmd_init (zl := stored_zlib) false true 12 15 None with Ok p => p | Raise _ => ex_pmd end.
Definition ex_client_conn : conn (pmd stored_zlib) := set_exts (new_conn CLIENT OPEN (Some 1000%Z) ex_keys) [ex_client_pmd].
Definition ex_server_conn : conn (pmd stored_zlib) := set_exts (new_conn SERVER OPEN (Some 1000%Z) ex_keys) [ex_server_pmd].
Definition ex_sending : list call := [CSendText (b "H") false; CSendContinuation (b "i") true; CSendClose (Some 1000%Z) (s "bye")].
Definition ex_bytes_to_server : bytes := Eval vm_compute in concat (wrote (endpoint_of ex_X ex_client_conn ex_sending)).
Definition ex_b : endpoint (pmd stored_zlib) := endpoint_of ex_X ex_server_conn
  [CReceiveData (firstn 15 ex_bytes_to_server); CEventsReceived; CReceiveData (skipn 15 ex_bytes_to_server)].
Definition ex_bytes_to_client : bytes := Eval vm_compute in concat (wrote ex_b).
Definition ex_a : endpoint (pmd stored_zlib) := endpoint_of ex_X ex_client_conn (ex_sending ++ [CReceiveData ex_bytes_to_client]).
Definition ex_bye : bytes := Eval vm_compute in match serialize_close 1000 (s "bye") with Ok d => d | _ => [] end.
Definition ex_fa : list frame := [mkframe false TEXT (b "H"); mkframe true CONT (b "i"); mkframe true CLOSE ex_bye].
(* the two fragments, as they are on the wire *)
Definition ex_g1 : frame := Eval vm_compute in
  match snd (pmd_encode ex_client_pmd (mkframe false TEXT (b "H"))) with Ok g => g | _ => mkframe true PONG [] end.
Definition ex_g2 : frame := Eval vm_compute in
  match snd (pmd_encode (fst (pmd_encode ex_client_pmd (mkframe false TEXT (b "H")))) (mkframe true CONT (b "i"))) with Ok g => g | _ => mkframe true PONG [] end.
Definition ex_ga : list frame := [ex_g1; ex_g2; mkframe true CLOSE ex_bye].
Definition ex_fb : list frame := [mkframe true CLOSE ex_bye].

Example ex_b_sent : sent_by ex_b ex_fb ex_fb.
Proof.
  eapply sent_of; [vm_compute; reflexivity| |vm_compute; reflexivity| |].
  - eapply (written_item false (n2b 0) (n2b 0) (n2b 0) (n2b 0) (mkframe true CLOSE ex_bye)); [vm_compute; reflexivity|].
    apply Forall2_cons with (y := Eof); [reflexivity|apply Forall2_nil].
  - reflexivity.
  - reflexivity.
Qed.
Example ex_a_sent : sent_by ex_a ex_fa ex_ga.
Proof.
  eapply sent_of; [vm_compute; reflexivity| |vm_compute; reflexivity| |].
  - eapply (written_item true (n2b 0) (n2b 1) (n2b 2) (n2b 3) ex_g1); [vm_compute; reflexivity|].
    eapply (written_item true (n2b 1) (n2b 1) (n2b 2) (n2b 3) ex_g2); [vm_compute; reflexivity|].
    eapply (written_item true (n2b 2) (n2b 1) (n2b 2) (n2b 3) (mkframe true CLOSE ex_bye)); [vm_compute; reflexivity|].
    apply Forall2_nil.
  - reflexivity.
  - reflexivity.
Qed.
Example C92_applies : good_zlib stored_zlib /\ negotiated ex_a ex_b /\ in_use stored_zlib ex_a /\ in_use stored_zlib ex_b /\
  receives_from stored_zlib ex_b ex_a ex_fa ex_ga [] /\ receives_from stored_zlib ex_a ex_b ex_fb ex_fb [] /\
  called_send_close ex_a (Some 1000%Z) (s "bye") /\ (forall code' reason', ~ In (CSendClose code' reason') (e_calls ex_b)) /\
  close_code ex_a = Some 1000%Z /\ close_reason ex_b = Some (s "bye") /\
  data_sent ex_a = [mkframe false TEXT (b "H"); mkframe true CONT (b "i")] /\ f_data ex_g1 <> b "H".
Proof.
  split; [exists stored_sync; split; [exact stored_correct|split; [exact stored_expands|exact stored_can_decompress]]|].
  split.
  { right. exists ex_client_pmd, ex_server_pmd. split; [reflexivity|]. split; [reflexivity|].
    split; [exists true, false, 15%Z, 12%Z, None; split; [vm_compute; reflexivity|apply stored_can_compress; lia]|].
    split; [exists false, true, 12%Z, 15%Z, None; split; [vm_compute; reflexivity|apply stored_can_compress; lia]|].
    vm_compute. repeat split. }
  split. { apply in_use_of; [repeat split| |repeat constructor]. intros [H|[H|[H|[H|[]]]]]; discriminate H. }
  split. { apply in_use_of; [repeat split| |repeat constructor]. intros [H|[H|[H|[]]]]; discriminate H. }
  split.
  { split.
    - discriminate.
    - vm_compute. reflexivity.
    - exact ex_a_sent.
    - apply small_enough. vm_compute. discriminate.
    - intros before f later H Hc. destruct before as [|x [|y [|z before]]];
        [injection H as <- _; discriminate Hc|injection H as _ <- _; discriminate Hc| |injection H as _ _ _ H; destruct before; discriminate H].
      injection H as <- <- _ _.
      exists [[mkframe false TEXT (b "H"); mkframe true CONT (b "i")]]. split; [reflexivity|]. split; [|now left]. constructor; [|constructor]. right.
      exists [mkframe false TEXT (b "H")], (mkframe true CONT (b "i")). split; [reflexivity|]. split; [|split; reflexivity].
      exists (mkframe false TEXT (b "H")), []. split; [reflexivity|]. split; [now left|]. split; [discriminate|constructor].
    - apply no_pings. repeat constructor; discriminate. }
  split.
  { split.
    - discriminate.
    - vm_compute. reflexivity.
    - exact ex_b_sent.
    - apply small_enough. vm_compute. discriminate.
    - intros before f later H Hc. destruct before as [|x before]; [|injection H as _ H; destruct before; discriminate H].
      exists []. apply message_sequence_nil.
    - apply no_pings. repeat constructor; discriminate. }
  split. { right. right. left. vm_compute. reflexivity. }
  split. { intros code reason [H|[H|[H|[]]]]; discriminate H. }
  split; [vm_compute; reflexivity|]. split; [vm_compute; reflexivity|]. split; [vm_compute; reflexivity|]. vm_compute. discriminate.
Qed.

Print Assumptions C92_no_failure.
Print Assumptions C92_data.
Print Assumptions C92_closing_handshake.
Print Assumptions C92_same_code.
