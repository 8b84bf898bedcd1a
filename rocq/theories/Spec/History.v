(* What can be observed of a connection over its whole life. *)
From Verif Require Import Base.Prelude Spec.Rfc6455 Spec.FrameSpec Model.Frames Model.Connection.

(* The calls made on a connection return values; data_to_send() returns bytes to write to
   the transport, events_received() returns events. *)
Definition written_by (r : ret) : list bytes := match r with RWrites l => l | _ => [] end.
Definition delivered_by (r : ret) : list event := match r with REvents l => l | _ => [] end.

(* All the bytes written since the connection was created: those returned by
   data_to_send(), and those it would return now. *)
Definition all_writes {E} (rs : list ret) (m : machine E) : list bytes :=
  flat_map written_by rs ++ c_writes (m_conn m).

(* All the events delivered, in the same way. *)
Definition all_events {E} (rs : list ret) (m : machine E) : list event :=
  flat_map delivered_by rs ++ c_events (m_conn m).

Definition frames_of (l : list event) : list frame :=
  flat_map (fun e => match e with EvFrame f => [f] | _ => [] end) l.

(* What is written on a WebSocket connection: frames, with their masking key, and the
   end-of-stream marker, an empty bytestring. *)
Inductive item : Type :=
| Eof
| Sent (f : frame) (key : option (byte * byte * byte * byte)).

Definition item_bytes (w : bytes) (i : item) : Prop :=
  match i with
  | Eof => w = []
  | Sent f key => minimal_layout (on_wire f key) w
  end.

Definition written (ws : list bytes) (is : list item) : Prop := Forall2 item_bytes ws is.

Definition sent_frames (is : list item) : list frame :=
  flat_map (fun i => match i with Sent f _ => [f] | Eof => [] end) is.

Definition is_close (f : frame) : Prop := f_opcode f = CLOSE.

(* A connection whose opening handshake has just completed (or hasn't started). *)
Definition fresh {E} (st : state) (c : conn E) : Prop :=
  c_state c = st /\ c_cur_size c = None /\ c_expect_cont c = false /\ c_close_rcvd c = false /\
  c_close_code c = None /\ c_eof_sent c = false /\ c_events c = [] /\ c_writes c = [] /\
  c_draws c = 0%nat.

(* Extensions may change the payload and the reserved bits of data frames, but not the
   structure of the stream. *)
Definition keeps_framing {E} (X : ext_ops E) : Prop :=
  (forall e f e' f', ext_encode X e f = (e', Ok f') ->
     f_opcode f' = f_opcode f /\ f_fin f' = f_fin f /\ (is_ctrl (f_opcode f) = true -> f' = f)) /\
  (forall e f n e' f', ext_decode X e f n = (e', Ok f') ->
     f_opcode f' = f_opcode f /\ f_fin f' = f_fin f /\ (is_ctrl (f_opcode f) = true -> f' = f)).

(* the end-of-stream marker is last *)
Definition only_eof (l : list item) : Prop := forall i, In i l -> i = Eof.

(* payloads of the pings received before the first close frame *)
Fixpoint pings_before_close (l : list frame) : list bytes :=
  match l with
  | [] => []
  | f :: r => match f_opcode f with
              | CLOSE => []
              | PING => f_data f :: pings_before_close r
              | _ => pings_before_close r
              end
  end.

(* payloads of the pongs sent *)
Definition pongs (l : list frame) : list bytes :=
  flat_map (fun f => match f_opcode f with PONG => [f_data f] | _ => [] end) l.

(* the order of states *)
Definition rank (x : state) : nat :=
  match x with CONNECTING => 0 | OPEN => 1 | CLOSING => 2 | CLOSED => 3 end.

Definition key_of (k : key4) : byte * byte * byte * byte := (k0 k, k1 k, k2 k, k3 k).

(* the masking keys of the frames in a list of items *)
Definition masking_keys (is : list item) : list (option (byte * byte * byte * byte)) :=
  flat_map (fun i => match i with Sent _ k => [k] | Eof => [] end) is.

(* The connection has received whole frames, and waits for the next one. *)
Definition between_frames {E} (X : ext_ops E) (m : machine E) : Prop :=
  m_parser m = PRun (parse_body X) /\ m_reader m = Streams.reader_init /\ m_exc m = None.
