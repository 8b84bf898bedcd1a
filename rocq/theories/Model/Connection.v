(* Model of src/websockets/connection.py *)
From Verif Require Import Base.Prelude Model.Datastructures Model.Http11 Model.Streams
  Model.Utils Model.Frames.

(* connection.py 38-43: Side *)
Inductive side : Type := SERVER | CLIENT.
Definition is_server (x : side) : bool := match x with SERVER => true | CLIENT => false end.
Definition is_client (x : side) : bool := match x with SERVER => false | CLIENT => true end.

(* connection.py 49-56: State *)
Inductive state : Type := CONNECTING | OPEN | CLOSING | CLOSED.
Definition is_open (x : state) : bool := match x with OPEN => true | _ => false end.
Definition state_name (x : state) : str :=
  match x with
  | CONNECTING => s "CONNECTING" | OPEN => s "OPEN"
  | CLOSING => s "CLOSING" | CLOSED => s "CLOSED"
  end.

(* connection.py 32: Event = Union[Request, Response, Frame] *)
Inductive event : Type :=
| EvRequest (r : request)
| EvResponse (r : response)
| EvFrame (f : frame).

(* four bytes drawn by secrets.token_bytes(4) *)
Record key4 : Type := Key4 { k0 : byte; k1 : byte; k2 : byte; k3 : byte }.
Definition key_bytes (k : key4) : bytes := [k0 k; k1 k; k2 k; k3 k].

(* connection.py 64-113: attributes of Connection, except the reader and the parser.
   close_code and close_reason are unset (None) until assigned.  [c_keys] is the sequence
   of values secrets.token_bytes(4) will return, [c_draws] how many were drawn so far. *)
Record conn (E : Type) : Type := Conn {
  c_side : side; c_state : state; c_max_size : option Z; c_cur_size : option Z;
  c_expect_cont : bool; c_origin : option str; c_exts : list E; c_subprotocol : option str;
  c_close_rcvd : bool; c_close_code : option Z; c_close_reason : option str;
  c_eof_sent : bool; c_events : list event; c_writes : list bytes;
  c_keys : nat -> key4; c_draws : nat }.
Arguments Conn {E}.
Arguments c_side {E}. Arguments c_state {E}. Arguments c_max_size {E}.
Arguments c_cur_size {E}. Arguments c_expect_cont {E}. Arguments c_origin {E}.
Arguments c_exts {E}. Arguments c_subprotocol {E}. Arguments c_close_rcvd {E}.
Arguments c_close_code {E}. Arguments c_close_reason {E}. Arguments c_eof_sent {E}.
Arguments c_events {E}. Arguments c_writes {E}. Arguments c_keys {E}. Arguments c_draws {E}.

Section Connection.
Context {E : Type} (X : ext_ops E).
Implicit Type c : conn E.

(* attribute assignments *)
Definition set_state c (x : state) : conn E :=       (* connection.py 115-119 *)
  Conn (c_side c) x (c_max_size c) (c_cur_size c) (c_expect_cont c) (c_origin c) (c_exts c)
    (c_subprotocol c) (c_close_rcvd c) (c_close_code c) (c_close_reason c) (c_eof_sent c)
    (c_events c) (c_writes c) (c_keys c) (c_draws c).
Definition set_cur_size c (x : option Z) : conn E :=
  Conn (c_side c) (c_state c) (c_max_size c) x (c_expect_cont c) (c_origin c) (c_exts c)
    (c_subprotocol c) (c_close_rcvd c) (c_close_code c) (c_close_reason c) (c_eof_sent c)
    (c_events c) (c_writes c) (c_keys c) (c_draws c).
Definition set_expect_cont c (x : bool) : conn E :=
  Conn (c_side c) (c_state c) (c_max_size c) (c_cur_size c) x (c_origin c) (c_exts c)
    (c_subprotocol c) (c_close_rcvd c) (c_close_code c) (c_close_reason c) (c_eof_sent c)
    (c_events c) (c_writes c) (c_keys c) (c_draws c).
Definition set_origin c (x : option str) : conn E :=
  Conn (c_side c) (c_state c) (c_max_size c) (c_cur_size c) (c_expect_cont c) x (c_exts c)
    (c_subprotocol c) (c_close_rcvd c) (c_close_code c) (c_close_reason c) (c_eof_sent c)
    (c_events c) (c_writes c) (c_keys c) (c_draws c).
Definition set_exts c (x : list E) : conn E :=
  Conn (c_side c) (c_state c) (c_max_size c) (c_cur_size c) (c_expect_cont c) (c_origin c) x
    (c_subprotocol c) (c_close_rcvd c) (c_close_code c) (c_close_reason c) (c_eof_sent c)
    (c_events c) (c_writes c) (c_keys c) (c_draws c).
Definition set_subprotocol c (x : option str) : conn E :=
  Conn (c_side c) (c_state c) (c_max_size c) (c_cur_size c) (c_expect_cont c) (c_origin c)
    (c_exts c) x (c_close_rcvd c) (c_close_code c) (c_close_reason c) (c_eof_sent c)
    (c_events c) (c_writes c) (c_keys c) (c_draws c).
Definition set_close_rcvd c (x : bool) : conn E :=
  Conn (c_side c) (c_state c) (c_max_size c) (c_cur_size c) (c_expect_cont c) (c_origin c)
    (c_exts c) (c_subprotocol c) x (c_close_code c) (c_close_reason c) (c_eof_sent c)
    (c_events c) (c_writes c) (c_keys c) (c_draws c).
Definition set_close c (code : Z) (reason : str) : conn E :=
  Conn (c_side c) (c_state c) (c_max_size c) (c_cur_size c) (c_expect_cont c) (c_origin c)
    (c_exts c) (c_subprotocol c) (c_close_rcvd c) (Some code) (Some reason) (c_eof_sent c)
    (c_events c) (c_writes c) (c_keys c) (c_draws c).
Definition set_eof_sent c (x : bool) : conn E :=
  Conn (c_side c) (c_state c) (c_max_size c) (c_cur_size c) (c_expect_cont c) (c_origin c)
    (c_exts c) (c_subprotocol c) (c_close_rcvd c) (c_close_code c) (c_close_reason c) x
    (c_events c) (c_writes c) (c_keys c) (c_draws c).
Definition set_events c (x : list event) : conn E :=
  Conn (c_side c) (c_state c) (c_max_size c) (c_cur_size c) (c_expect_cont c) (c_origin c)
    (c_exts c) (c_subprotocol c) (c_close_rcvd c) (c_close_code c) (c_close_reason c)
    (c_eof_sent c) x (c_writes c) (c_keys c) (c_draws c).
Definition set_writes c (x : list bytes) : conn E :=
  Conn (c_side c) (c_state c) (c_max_size c) (c_cur_size c) (c_expect_cont c) (c_origin c)
    (c_exts c) (c_subprotocol c) (c_close_rcvd c) (c_close_code c) (c_close_reason c)
    (c_eof_sent c) (c_events c) x (c_keys c) (c_draws c).
Definition set_draws c (x : nat) : conn E :=
  Conn (c_side c) (c_state c) (c_max_size c) (c_cur_size c) (c_expect_cont c) (c_origin c)
    (c_exts c) (c_subprotocol c) (c_close_rcvd c) (c_close_code c) (c_close_reason c)
    (c_eof_sent c) (c_events c) (c_writes c) (c_keys c) x.

(* connection.py 61: SEND_EOF *)
Definition SEND_EOF : bytes := [].

(* A method of Connection: the new state, and None or an exception. *)
Definition meth : Type := conn E -> conn E * result unit.
Definition mret : meth := fun c => (c, Ok tt).
Definition mraise (e : exn) : meth := fun c => (c, Raise e).
Definition mseq (m k : meth) : meth := fun c =>
  let '(c', r) := m c in match r with Ok _ => k c' | Raise e => (c', Raise e) end.
Definition mupd (f : conn E -> conn E) : meth := fun c => (f c, Ok tt).

(* connection.py 405-409: send_eof *)
Definition send_eof : meth := fun c =>
  if c_eof_sent c then (c, Raise AssertionError)
  else (set_writes (set_eof_sent c true) (c_writes c ++ [SEND_EOF]), Ok tt).

(* connection.py 393-403: send_frame *)
Definition send_frame (f : frame) : meth := fun c =>
  match c_state c with
  | OPEN =>
    let mask := is_client (c_side c) in
    let '(exts', r) := serialize X (c_exts c) f mask (key_bytes (c_keys c (c_draws c))) in
    let c := set_exts c exts' in
    match r with
    | Raise e => (c, Raise e)
    | Ok data =>
        let c := if mask then set_draws c (S (c_draws c)) else c in
        (set_writes c (c_writes c ++ [data]), Ok tt)
    end
  | st => (c, Raise (InvalidState (s "cannot write to a WebSocket in the " ++ state_name st
                                     ++ s " state")))
  end.

(* connection.py 152-160: send_continuation *)
Definition send_continuation (data : bytes) (fin : bool) : meth := fun c =>
  if negb (c_expect_cont c) then (c, Raise (ProtocolError (s "unexpected continuation frame")))
  else send_frame (mkframe fin CONT data) (set_expect_cont c (negb fin)).

(* connection.py 162-170: send_text *)
Definition send_text (data : bytes) (fin : bool) : meth := fun c =>
  if c_expect_cont c then (c, Raise (ProtocolError (s "expected a continuation frame")))
  else send_frame (mkframe fin TEXT data) (set_expect_cont c (negb fin)).

(* connection.py 172-180: send_binary *)
Definition send_binary (data : bytes) (fin : bool) : meth := fun c =>
  if c_expect_cont c then (c, Raise (ProtocolError (s "expected a continuation frame")))
  else send_frame (mkframe fin BINARY data) (set_expect_cont c (negb fin)).

(* the end of connection.py 182-200 and 380-383: after sending a close frame *)
Definition start_closing : meth :=
  mseq (mupd (fun c => set_state c CLOSING))
       (fun c => if is_server (c_side c) then send_eof c else mret c).

(* connection.py 182-200: send_close *)
Definition send_close (code : option Z) (reason : str) : meth := fun c =>
  if c_expect_cont c then (c, Raise (ProtocolError (s "expected a continuation frame")))
  else
    let data :=
      match code with
      | None => match reason with [] => Ok [] | _ => Raise ValueError end
      | Some x => serialize_close x reason
      end in
    match data with
    | Raise e => (c, Raise e)
    | Ok data => mseq (send_frame (mkframe true CLOSE data)) start_closing c
    end.

(* connection.py 202-207: send_ping *)
Definition send_ping (data : bytes) : meth := send_frame (mkframe true PING data).

(* connection.py 209-214: send_pong *)
Definition send_pong (data : bytes) : meth := send_frame (mkframe true PONG data).

(* connection.py 218-227: events_received *)
Definition events_received c : conn E * list event := (set_events c [], c_events c).

(* connection.py 231-242: data_to_send *)
Definition data_to_send c : conn E * list bytes := (set_writes c [], c_writes c).

(* connection.py 246-254: fail_connection *)
Definition fail_connection (code : Z) (reason : str) : meth :=
  mseq
    (fun c =>
       if negb (code =? 1006)%Z && is_open (c_state c) then
         match serialize_close code reason with
         | Raise e => (c, Raise e)
         | Ok data =>
             mseq (send_frame (mkframe true CLOSE data)) (mupd (fun c => set_state c CLOSING)) c
         end
       else mret c)
    (fun c => if c_eof_sent c then mret c else send_eof c).

(* run a method inside a generator *)
Definition gmeth (m : meth) : gen (conn E) unit :=
  GGet (fun c => let '(c', r) := m c in GPut c' (glift r)).

(* connection.py 323-387: what is done with a frame before appending it to events *)
Definition process_frame (f : frame) : meth := fun c =>
  match f_opcode f with
  | TEXT | BINARY =>
    if c_close_rcvd c then (c, Raise (ProtocolError (s "data frame after close frame")))
    else match c_cur_size c with
    | Some _ => (c, Raise (ProtocolError (s "expected a continuation frame")))
    | None =>
      if f_fin f then (set_cur_size c None, Ok tt)
      else (set_cur_size c (Some (lenZ (f_data f))), Ok tt)
    end
  | CONT =>
    if c_close_rcvd c then (c, Raise (ProtocolError (s "data frame after close frame")))
    else match c_cur_size c with
    | None => (c, Raise (ProtocolError (s "unexpected continuation frame")))
    | Some n =>
      if f_fin f then (set_cur_size c None, Ok tt)
      else (set_cur_size c (Some (n + lenZ (f_data f))%Z), Ok tt)
    end
  | PING =>
    if c_close_rcvd c then (c, Ok tt)
    else send_frame (mkframe true PONG (f_data f)) c
  | PONG => (c, Ok tt)
  | CLOSE =>
    let c := set_close_rcvd c true in
    match parse_close (f_data f) with
    | Raise e => (c, Raise e)
    | Ok (code, reason) =>
      let c := set_close c code reason in
      match c_cur_size c with
      | Some _ => (c, Raise (ProtocolError (s "incomplete fragmented message")))
      | None =>
        if is_open (c_state c)
        then mseq (send_frame (mkframe true CLOSE (f_data f))) start_closing c
        else (c, Ok tt)
      end
    end
  end.

(* connection.py 309-314: the size limit for the next frame *)
Definition next_max_size c : option Z :=
  match c_max_size c with
  | None => None
  | Some m => match c_cur_size c with None => Some m | Some n => Some (m - n)%Z end
  end.

(* connection.py 291-389: one iteration of the loop of parse *)
Definition parse_body : gen (conn E) unit :=
  let* eof := at_eof in
  let* c := get_state in
  if eof then
    if c_close_rcvd c then
      let* _ := if c_eof_sent c then GRet tt else gmeth send_eof in
      GYield (GRaise AssertionError)
    else GRaise EOFError
  else
    let* f := parse_frame X c_exts set_exts (is_server (c_side c)) (next_max_size c) in
    let* _ := gmeth (process_frame f) in
    gmeth (mupd (fun c => set_events c (c_events c ++ [EvFrame f]))).

(* connection.py 107-113: the parser: a suspended generator, or a finished one *)
Inductive parser : Type :=
| PRun (g : gen (conn E) unit)
| PDead.

(* A Connection object. *)
Record machine : Type := Machine {
  m_conn : conn E; m_reader : reader; m_parser : parser; m_exc : option exn }.

(* next(self.parser): when the first generator (handshake or loop body) returns, the loop
   of connection.py 292 starts over. [None]: the bound on iterations is exhausted, which
   doesn't happen (Proofs/ParserFacts.v, run_parser_total). *)
Fixpoint run_parser (fuel : nat) (g : gen (conn E) unit) (r : reader) c
  : option (outcome (conn E) unit) :=
  match fuel with
  | O => None
  | Datatypes.S fuel' =>
    match run g r c with
    | ODone _ r' c' => run_parser fuel' parse_body r' c'
    | o => Some o
    end
  end.

Definition parser_fuel (r : reader) : nat := length (r_buffer r) + 2.

(* connection.py 268-289: the close code and reason for an exception raised by the parser *)
Definition close_code_for (e : exn) : Z * str :=
  match e with
  | ProtocolError msg => (1002%Z, msg)
  | EOFError => (1006%Z, [])
  | UnicodeDecodeError reason start =>
      (1007%Z, reason ++ s " at position " ++ str_of_N start)
  | PayloadTooBig msg => (1009%Z, msg)
  | _ => (1011%Z, [])
  end.

(* connection.py 256-289: step_parser *)
Definition step_parser (m : machine) : machine * result unit :=
  match m_parser m with
  | PDead => (m, Raise (match m_exc m with Some _ => RuntimeError | None => AssertionError end))
  | PRun g =>
    match run_parser (parser_fuel (m_reader m)) g (m_reader m) (m_conn m) with
    | None => (m, Raise NotImplementedError)   (* unreachable *)
    | Some (OSusp g' r c) => (Machine c r (PRun g') (m_exc m), Ok tt)
    | Some (ODone _ r c) => (Machine c r PDead (m_exc m), Ok tt)   (* unreachable *)
    | Some (OFail e r c) =>
      let '(code, reason) := close_code_for e in
      let '(c', res) := fail_connection code reason c in
      match res with
      | Ok _ => (Machine c' r PDead (Some e), Raise e)
      | Raise e' => (Machine c' r PDead (m_exc m), Raise e')
      end
    end
  end.

(* connection.py 123-134: receive_data *)
Definition receive_data (m : machine) (data : bytes) : machine * result unit :=
  match feed_data (m_reader m) data with
  | Raise e => (m, Raise e)
  | Ok r => step_parser (Machine (m_conn m) r (m_parser m) (m_exc m))
  end.

(* connection.py 136-148: receive_eof *)
Definition receive_eof (m : machine) : machine * result unit :=
  match feed_eof (m_reader m) with
  | Raise e => (m, Raise e)
  | Ok r => step_parser (Machine (m_conn m) r (m_parser m) (m_exc m))
  end.

(* connection.py 65-113: __init__, up to next(self.parser) *)
Definition new_conn (sd : side) (st : state) (max_size : option Z) (keys : nat -> key4) : conn E :=
  Conn sd st max_size None false None [] None false None None false [] [] keys 0.

(* connection.py 111-113: parser = self.parse(); next(parser).  [g] is the generator:
   parse_body, or the handshake of a subclass. *)
Definition start (g : gen (conn E) unit) (c : conn E) : machine :=
  fst (step_parser (Machine c reader_init (PRun g) None)).

Definition new_connection (sd : side) (st : state) (max_size : option Z) (keys : nat -> key4)
  : machine := start parse_body (new_conn sd st max_size keys).

(* The public API, as a list of calls. *)
Inductive call : Type :=
| CReceiveData (data : bytes)
| CReceiveEof
| CSendContinuation (data : bytes) (fin : bool)
| CSendText (data : bytes) (fin : bool)
| CSendBinary (data : bytes) (fin : bool)
| CSendClose (code : option Z) (reason : str)
| CSendPing (data : bytes)
| CSendPong (data : bytes)
| CEventsReceived
| CDataToSend.

(* What a call returns. *)
Inductive ret : Type :=
| RNone
| RRaise (e : exn)
| REvents (l : list event)
| RWrites (l : list bytes).

Definition ret_of (r : result unit) : ret :=
  match r with Ok _ => RNone | Raise e => RRaise e end.

Definition on_conn (m : machine) (f : meth) : machine * ret :=
  let '(c, r) := f (m_conn m) in (Machine c (m_reader m) (m_parser m) (m_exc m), ret_of r).

Definition do_call (m : machine) (k : call) : machine * ret :=
  match k with
  | CReceiveData data => let '(m', r) := receive_data m data in (m', ret_of r)
  | CReceiveEof => let '(m', r) := receive_eof m in (m', ret_of r)
  | CSendContinuation data fin => on_conn m (send_continuation data fin)
  | CSendText data fin => on_conn m (send_text data fin)
  | CSendBinary data fin => on_conn m (send_binary data fin)
  | CSendClose code reason => on_conn m (send_close code reason)
  | CSendPing data => on_conn m (send_ping data)
  | CSendPong data => on_conn m (send_pong data)
  | CEventsReceived =>
      let '(c, l) := events_received (m_conn m) in
      (Machine c (m_reader m) (m_parser m) (m_exc m), REvents l)
  | CDataToSend =>
      let '(c, l) := data_to_send (m_conn m) in
      (Machine c (m_reader m) (m_parser m) (m_exc m), RWrites l)
  end.

(* A history: the calls made and what each returned. *)
Fixpoint do_calls (m : machine) (ks : list call) : machine * list ret :=
  match ks with
  | [] => (m, [])
  | k :: ks' =>
    let '(m', r) := do_call m k in
    let '(m'', rs) := do_calls m' ks' in
    (m'', r :: rs)
  end.
End Connection.
Arguments machine E : clear implicits.
Arguments Machine {E}.
Arguments m_conn {E}. Arguments m_reader {E}. Arguments m_parser {E}. Arguments m_exc {E}.
Arguments PRun {E}. Arguments PDead {E}.
