(* Vocabulary for two sans-I/O connections, each of which receives what the other one writes. *)
From Verif Require Import Base.Prelude Spec.Rfc6455 Spec.FrameSpec Spec.Messages Spec.History
  Model.Streams Model.Frames Model.Connection Properties.FrameCodec.

(* the data passed to receive_data() *)
Definition received_data (ks : list call) : bytes :=
  flat_map (fun k => match k with CReceiveData d => d | _ => [] end) ks.

(* the calls to receive_data() raised no exception *)
Definition no_failure (ks : list call) (rs : list ret) : Prop :=
  Forall2 (fun k r => forall d, k = CReceiveData d -> r = RNone) ks rs.

(* The data frames which a program sends: those of the calls to send_text(), send_binary() and send_continuation()
   that raised no exception. *)
Definition asked (ks : list call) (rs : list ret) : list frame :=
  flat_map (fun kr => match kr with
    | (CSendText data fin, RNone) => [mkframe fin TEXT data]
    | (CSendBinary data fin, RNone) => [mkframe fin BINARY data]
    | (CSendContinuation data fin, RNone) => [mkframe fin CONT data]
    | _ => []
    end) (combine ks rs).

(* The peer sent frames fs; after this end sent a close frame, it received no ping among them. *)
Definition no_ping_while_closing {E} (X : ext_ops E) (c0 : conn E) (ks : list call) (fs : list frame) : Prop :=
  forall ks1 code reason ks2 m1 rs1 m2 later f,
    ks = ks1 ++ CSendClose code reason :: ks2 ->
    do_calls X (start X (parse_body X) c0) ks1 = (m1, rs1) ->
    do_call X m1 (CSendClose code reason) = (m2, RNone) ->
    fs = frames_of (all_events rs1 m1) ++ later -> In f later -> f_opcode f <> PING.

(* No close frame comes in the middle of a fragmented message. *)
Definition close_between_messages (fs : list frame) : Prop :=
  forall before f later, fs = before ++ f :: later -> is_close f ->
    exists done, message_sequence before done [].

(* fs are the frames that a program sent, gs what they are on the wire: with compression, the data of a data frame differs.
   Every message is within the limit, before and after compression, when the control frames received meanwhile are
   counted one at a time. *)
Definition within_limit (max : option Z) (fs gs : list frame) : Prop :=
  forall before f g later done current,
    combine fs gs = before ++ (f, g) :: later -> message_sequence (map fst before) done current ->
    fits max (message_size current + length (f_data f)) /\ fits max (message_size current + length (f_data g)).

(* gs, when the data frames are replaced by those given, in order *)
Fixpoint restored (gs data : list frame) : list frame :=
  match gs with
  | [] => []
  | g :: gs => if is_data_b g then match data with f :: data => f :: restored gs data | [] => [] end
               else g :: restored gs data
  end.

(* One end: a connection whose opening handshake has completed, the calls made on it and what they returned. *)
Record endpoint {E : Type} : Type := Endpoint {
  e_conn : conn E; e_calls : list call; e_state : machine E; e_returned : list ret }.
Arguments endpoint : clear implicits.
Section Ends.
Context {E : Type} (X : ext_ops E).
Implicit Types e o : endpoint E.
Definition wrote e : list bytes := all_writes (e_returned e) (e_state e).
Definition reported e : list frame := frames_of (all_events (e_returned e) (e_state e)).
(* the data frames which the program sends at this end *)
Definition data_sent e : list frame := asked (e_calls e) (e_returned e).
(* it wrote frames gs; fs are these frames before compression: the data frames are those which the program sends *)
Definition sent_by e (fs gs : list frame) : Prop :=
  exists is, written (wrote e) is /\ sent_frames is = gs /\ restored gs (data_sent e) = fs.
Definition close_code e : option Z := c_close_code (m_conn (e_state e)).
Definition close_reason e : option str := c_close_reason (m_conn (e_state e)).
(* send_close(code, reason) was called, and raised no exception *)
Definition called_send_close e (code : option Z) (reason : str) : Prop :=
  In (CSendClose code reason, RNone) (combine (e_calls e) (e_returned e)).

(* the calls made on an end, and what they returned, are those of a connection which is open at the start; it hasn't
   received the end of the stream; the length of the data of each call to send it is below [size] *)
Record in_use (size : N) e : Prop := {
  iu_calls : do_calls X (start X (parse_body X) (e_conn e)) (e_calls e) = (e_state e, e_returned e);
  iu_fresh : fresh OPEN (e_conn e);
  iu_no_eof : ~ In CReceiveEof (e_calls e);
  iu_sizes : forall data fin, In (CSendText data fin) (e_calls e) \/ In (CSendBinary data fin) (e_calls e) \/
    In (CSendContinuation data fin) (e_calls e) -> (lenN data < size)%N }.

(* e receives what the other end o, which sent frames fs, as gs on the wire, writes, in any chunks; [rest] is on its way.
   Nothing happens that makes it fail: see C08_close_within_message_refuted and C91_ping_refuted. *)
Record receives_from e o (fs gs : list frame) (rest : bytes) : Prop := {
  rf_sides : c_side (e_conn e) <> c_side (e_conn o);
  rf_data : received_data (e_calls e) ++ rest = concat (wrote o);
  rf_sent : sent_by o fs gs;
  rf_limit : within_limit (c_max_size (e_conn e)) fs gs;
  rf_close : close_between_messages fs;
  rf_pings : no_ping_while_closing X (e_conn e) (e_calls e) fs }.
End Ends.

(* what close_code and close_reason are after send_close(code, reason) at the other end; 1005: no code *)
Definition code_received (code : option Z) : Z := match code with Some x => x | None => 1005 end.
