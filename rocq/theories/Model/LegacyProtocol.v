(* Model of src/websockets/legacy/protocol.py: WebSocketCommonProtocol, as a transition system.

   A state holds the attributes of a connection and, for each coroutine in progress, the await
   it's suspended at, with its local variables.  A step runs one coroutine from an await to the
   next one, or a callback of the transport, or a call or a cancellation by the user.  Since
   asyncio runs one coroutine at a time and switches only at an await, every execution is a
   sequence of such steps.  Simplifications:

   - A coroutine whose await is complete may run at any time, in any order.  asyncio runs them
     in the order of their completion.  The model has more schedules.
   - Waiting for the write buffer (_drain_lock, _drain, _drain_helper: 304-332, 1094-1099) may end
     at any time, without error, or with an error if the connection is lost.  asyncio stops
     writers only above write_limit.  An await of a drain or of a read always lets other
     coroutines run; in asyncio it doesn't when there's nothing to wait for.
   - Frame.read is run again from the start of the frame when data arrives, instead of being
     suspended in the middle of a frame.  The bytes of a frame are taken from the buffer
     together.
   - asyncio.wait_for runs its coroutine in a separate task; the model runs it in place.
   - Exceptions don't have tracebacks, causes and, mostly, messages.  transfer_data_exc (294)
     is only used as a cause.
   - Iterators given to send() raise exceptions of type exn, not ConnectionClosed or errors of
     other connections.
   - Logging and deprecation warnings are left out. *)
From Verif Require Import Base.Prelude Base.Utf8 Model.Streams Model.Frames Model.LegacyFraming.
Local Open Scope N_scope.

(* 69-70: State *)
Inductive pstate : Type := Connecting | Open | Closing | Closed.
Definition is_open (x : pstate) : bool := match x with Open => true | _ => false end.
Definition pstate_eqb (x y : pstate) : bool :=
  match x, y with
  | Connecting, Connecting | Open, Open | Closing, Closing | Closed, Closed => true
  | _, _ => false
  end.

(* Errors of the transport, classified by the except clauses: ConnectionError and its subclasses,
   TimeoutError, other OSError. *)
Inductive oserror : Type := ConnectionErr | TimeoutErr | OtherOsErr.

Inductive pexn : Type :=
| PyExn (e : exn)
| ConnectionClosedOK (code : Z) (reason : str)       (* exceptions.py 123 *)
| ConnectionClosedError (code : Z) (reason : str)    (* exceptions.py 115 *)
| OsError (o : oserror)
| CancelledError
| InvalidStateError.                                 (* asyncio: the future is done already *)

(* asyncio.Future *)
Inductive fut : Type := FPending | FResult | FExn (e : pexn).
Definition fut_done (f : fut) : bool := match f with FPending => false | _ => true end.

(* Data: what recv() returns *)
Inductive message : Type := MText (x : str) | MBinary (x : bytes).

(* The argument of send(): 607-672 *)
Inductive sendable : Type :=
| SData (d : py_data)                                     (* str or bytes-like *)
| SDict                                                   (* a Mapping *)
| SIter (items : list py_data) (end_ : option exn)        (* an Iterable; it may end by raising *)
| SAsync                                                  (* an AsyncIterable *)
| SOther.

(* Calls made by the user *)
Inductive call : Type :=
| CallRecv
| CallSend (m : sendable)
| CallClose (code : Z) (reason : str)
| CallPing (data : option py_data)
| CallPong (data : py_data)
| CallWaitClosed.

(* Result of a call *)
Inductive ures : Type :=
| RNone
| RMessage (m : message)
| RPing (w : nat)            (* the future returned by ping() *)
| RRaise (e : pexn).

(* What read_message has read of the current message: 918-980 *)
Inductive rctx : Type :=
| RFirst
| RText (chunks : list str) (pending : bytes) (max_size : option Z)
| RBinary (chunks : list bytes) (max_size : option Z).

(* Where transfer_data_task is suspended *)
Inductive tpc : Type :=
| TNone                                 (* the task doesn't exist *)
| TRead (c : rctx)                      (* 1068: Frame.read *)
| TPongDrain (c : rctx)                 (* 1099, from 1017 *)
| TPongEnsure (c : rctx)                (* 832, from 1017 *)
| TCloseDrain (c : rctx)                (* 1099, from 1004 *)
| TCloseEnsure (c : rctx)               (* 832, from 1004 *)
| TPut (m : message) (w : nat)          (* 859 *)
| TDone (e : option exn).               (* exception of the task, if it isn't CancelledError *)

(* Where keepalive_ping_task is suspended.  Deadlines are None when there's no timeout. *)
Inductive kpc : Type :=
| KNone
| KStart
| KSleep (d : N)                        (* 1141 *)
| KPingDrain (data : bytes)             (* 1099, from 1152 *)
| KPingEnsure                           (* 818 or 832, from 1152 *)
| KPong (w : nat) (d : N)               (* 1156 *)
| KDone.

(* Where close_connection_task is suspended.  The exception is the one that ends the task. *)
Inductive cpc : Type :=
| CNone
| CStart
| CWaitT                                            (* 1193 *)
| CLost1 (d : option N)                             (* 1203 *)
| CLost2 (d : option N)                             (* 1214 *)
| CLost3 (d : option N) (e : option exn)            (* 1234 *)
| CLost4 (d : option N) (e : option exn)            (* 1245 *)
| CDone (e : option exn).

(* Source of the fragments of a message *)
Inductive source : Type := Sync (items : list py_data) (end_ : option exn) | Async.

(* Where a call made by the user is suspended *)
Inductive upc : Type :=
| UStart (c : call)
| URecvWait (w : nat)                               (* 504 *)
| USendFrag (w : nat) (m : sendable)                (* 576 *)
| UEnsure                                           (* 818 or 832; it always raises afterwards *)
| UDrain                                            (* 1099, from 583 or 791 *)
| UFragDrain (op : opcode) (rest : source)          (* 1099, from 607, 614, 648 or 656 *)
| UFragLast                                         (* 1099, from 617 or 659 *)
| UFragEnsure                                       (* 832, inside the try of 605 or 646 *)
| UANext (op : option opcode)                       (* 638, or 652 once the message is started *)
| UPingDrain (data : bytes)                         (* 1099, from 770 *)
| UCloseWrite (d : option N) (t0 : N)               (* 1099, from 697 *)
| UCloseEnsure (d : option N) (t0 : N)              (* 832, from 697 *)
| UCloseT (d : option N) (t0 : N)                   (* 718 *)
| UCloseT2 (t0 : N)                                 (* 718, once the task has been cancelled *)
| UCloseC (t0 : N)                                  (* 727 *)
| UWaitClosed                                       (* 438 *)
| UDone (r : ures).

(* 191-213: arguments of the constructor, is_client, and what transport.can_write_eof() returns;
   c_key n is the masking key chosen for the n-th frame *)
Record config : Type := {
  c_client : bool;
  c_max_size : option Z;
  c_max_queue : option N;
  c_close_timeout : option N;
  c_ping_interval : option N;
  c_ping_timeout : option N;
  c_legacy_recv : bool;
  c_can_write_eof : bool;
  c_key : nat -> bytes }.

(* A frame written, who wrote it, and the bytes *)
Inductive writer : Type := ByTransfer | ByKeepalive | ByFailure | ByCall (i : nat).
Record sent : Type := Sent { o_by : writer; o_frame : frame; o_bytes : bytes }.

(* Attributes of the connection.  p_pops, p_puts, p_frags and p_pongs are the futures created so
   far; the waiters are indices in these lists.  p_users are the calls made so far, with a flag telling that the call
   was cancelled.  p_in and p_delivered record the frames read and the messages returned by
   recv(), with the call that returned them. *)
Record conn (E : Type) : Type := Conn {
  p_state : pstate;
  p_reader : reader;
  p_lost : option (option oserror);        (* connection_lost_waiter is done; argument *)
  p_exts : list E;
  p_close : option (Z * str);              (* close_code, close_reason *)
  p_messages : list message;
  p_pop : option nat;                      (* _pop_message_waiter *)
  p_put : option nat;                      (* _put_message_waiter *)
  p_frag : option nat;                     (* _fragmented_message_waiter *)
  p_pings : list (bytes * nat);
  p_pops : list fut;                       (* futures created by recv() *)
  p_puts : list fut;                       (* futures created by transfer_data() *)
  p_frags : list fut;                      (* futures created by send() *)
  p_pongs : list fut;                      (* futures created by ping() *)
  p_out : list sent;                       (* frames written *)
  p_closing : bool;                        (* transport.is_closing() *)
  p_eof_written : bool;
  p_aborted : option N;                    (* transport.abort() was called, at this time *)
  p_T : tpc; p_Tcancel : bool;
  p_K : kpc; p_Kcancel : bool;
  p_C : cpc;
  p_users : list (upc * bool);
  p_now : N;
  p_in : list frame;
  p_delivered : list (nat * message) }.
Arguments Conn {E}.
Arguments p_state {E} _.
Arguments p_reader {E} _.
Arguments p_lost {E} _.
Arguments p_exts {E} _.
Arguments p_close {E} _.
Arguments p_messages {E} _.
Arguments p_pop {E} _.
Arguments p_put {E} _.
Arguments p_frag {E} _.
Arguments p_pings {E} _.
Arguments p_pops {E} _.
Arguments p_puts {E} _.
Arguments p_frags {E} _.
Arguments p_pongs {E} _.
Arguments p_out {E} _.
Arguments p_closing {E} _.
Arguments p_eof_written {E} _.
Arguments p_aborted {E} _.
Arguments p_T {E} _.
Arguments p_Tcancel {E} _.
Arguments p_K {E} _.
Arguments p_Kcancel {E} _.
Arguments p_C {E} _.
Arguments p_users {E} _.
Arguments p_now {E} _.
Arguments p_in {E} _.
Arguments p_delivered {E} _.

(* Assignments *)
Section Setters.
Context {E : Type}.
Implicit Type st : conn E.
Definition set_state (v : pstate) st : conn E :=
  Conn v (p_reader st) (p_lost st) (p_exts st) (p_close st) (p_messages st) (p_pop st)
    (p_put st) (p_frag st) (p_pings st) (p_pops st) (p_puts st) (p_frags st) (p_pongs st)
    (p_out st) (p_closing st) (p_eof_written st) (p_aborted st) (p_T st) (p_Tcancel st)
    (p_K st) (p_Kcancel st) (p_C st) (p_users st) (p_now st) (p_in st) (p_delivered st).
Definition set_reader (v : reader) st : conn E :=
  Conn (p_state st) v (p_lost st) (p_exts st) (p_close st) (p_messages st) (p_pop st)
    (p_put st) (p_frag st) (p_pings st) (p_pops st) (p_puts st) (p_frags st) (p_pongs st)
    (p_out st) (p_closing st) (p_eof_written st) (p_aborted st) (p_T st) (p_Tcancel st)
    (p_K st) (p_Kcancel st) (p_C st) (p_users st) (p_now st) (p_in st) (p_delivered st).
Definition set_lost (v : option (option oserror)) st : conn E :=
  Conn (p_state st) (p_reader st) v (p_exts st) (p_close st) (p_messages st) (p_pop st)
    (p_put st) (p_frag st) (p_pings st) (p_pops st) (p_puts st) (p_frags st) (p_pongs st)
    (p_out st) (p_closing st) (p_eof_written st) (p_aborted st) (p_T st) (p_Tcancel st)
    (p_K st) (p_Kcancel st) (p_C st) (p_users st) (p_now st) (p_in st) (p_delivered st).
Definition set_exts (v : list E) st : conn E :=
  Conn (p_state st) (p_reader st) (p_lost st) v (p_close st) (p_messages st) (p_pop st)
    (p_put st) (p_frag st) (p_pings st) (p_pops st) (p_puts st) (p_frags st) (p_pongs st)
    (p_out st) (p_closing st) (p_eof_written st) (p_aborted st) (p_T st) (p_Tcancel st)
    (p_K st) (p_Kcancel st) (p_C st) (p_users st) (p_now st) (p_in st) (p_delivered st).
Definition set_close (v : option (Z * str)) st : conn E :=
  Conn (p_state st) (p_reader st) (p_lost st) (p_exts st) v (p_messages st) (p_pop st)
    (p_put st) (p_frag st) (p_pings st) (p_pops st) (p_puts st) (p_frags st) (p_pongs st)
    (p_out st) (p_closing st) (p_eof_written st) (p_aborted st) (p_T st) (p_Tcancel st)
    (p_K st) (p_Kcancel st) (p_C st) (p_users st) (p_now st) (p_in st) (p_delivered st).
Definition set_messages (v : list message) st : conn E :=
  Conn (p_state st) (p_reader st) (p_lost st) (p_exts st) (p_close st) v (p_pop st) (p_put st)
    (p_frag st) (p_pings st) (p_pops st) (p_puts st) (p_frags st) (p_pongs st) (p_out st)
    (p_closing st) (p_eof_written st) (p_aborted st) (p_T st) (p_Tcancel st) (p_K st)
    (p_Kcancel st) (p_C st) (p_users st) (p_now st) (p_in st) (p_delivered st).
Definition set_pop (v : option nat) st : conn E :=
  Conn (p_state st) (p_reader st) (p_lost st) (p_exts st) (p_close st) (p_messages st) v
    (p_put st) (p_frag st) (p_pings st) (p_pops st) (p_puts st) (p_frags st) (p_pongs st)
    (p_out st) (p_closing st) (p_eof_written st) (p_aborted st) (p_T st) (p_Tcancel st)
    (p_K st) (p_Kcancel st) (p_C st) (p_users st) (p_now st) (p_in st) (p_delivered st).
Definition set_put (v : option nat) st : conn E :=
  Conn (p_state st) (p_reader st) (p_lost st) (p_exts st) (p_close st) (p_messages st)
    (p_pop st) v (p_frag st) (p_pings st) (p_pops st) (p_puts st) (p_frags st) (p_pongs st)
    (p_out st) (p_closing st) (p_eof_written st) (p_aborted st) (p_T st) (p_Tcancel st)
    (p_K st) (p_Kcancel st) (p_C st) (p_users st) (p_now st) (p_in st) (p_delivered st).
Definition set_frag (v : option nat) st : conn E :=
  Conn (p_state st) (p_reader st) (p_lost st) (p_exts st) (p_close st) (p_messages st)
    (p_pop st) (p_put st) v (p_pings st) (p_pops st) (p_puts st) (p_frags st) (p_pongs st)
    (p_out st) (p_closing st) (p_eof_written st) (p_aborted st) (p_T st) (p_Tcancel st)
    (p_K st) (p_Kcancel st) (p_C st) (p_users st) (p_now st) (p_in st) (p_delivered st).
Definition set_pings (v : list (bytes * nat)) st : conn E :=
  Conn (p_state st) (p_reader st) (p_lost st) (p_exts st) (p_close st) (p_messages st)
    (p_pop st) (p_put st) (p_frag st) v (p_pops st) (p_puts st) (p_frags st) (p_pongs st)
    (p_out st) (p_closing st) (p_eof_written st) (p_aborted st) (p_T st) (p_Tcancel st)
    (p_K st) (p_Kcancel st) (p_C st) (p_users st) (p_now st) (p_in st) (p_delivered st).
Definition set_pops (v : list fut) st : conn E :=
  Conn (p_state st) (p_reader st) (p_lost st) (p_exts st) (p_close st) (p_messages st)
    (p_pop st) (p_put st) (p_frag st) (p_pings st) v (p_puts st) (p_frags st) (p_pongs st)
    (p_out st) (p_closing st) (p_eof_written st) (p_aborted st) (p_T st) (p_Tcancel st)
    (p_K st) (p_Kcancel st) (p_C st) (p_users st) (p_now st) (p_in st) (p_delivered st).
Definition set_puts (v : list fut) st : conn E :=
  Conn (p_state st) (p_reader st) (p_lost st) (p_exts st) (p_close st) (p_messages st)
    (p_pop st) (p_put st) (p_frag st) (p_pings st) (p_pops st) v (p_frags st) (p_pongs st)
    (p_out st) (p_closing st) (p_eof_written st) (p_aborted st) (p_T st) (p_Tcancel st)
    (p_K st) (p_Kcancel st) (p_C st) (p_users st) (p_now st) (p_in st) (p_delivered st).
Definition set_frags (v : list fut) st : conn E :=
  Conn (p_state st) (p_reader st) (p_lost st) (p_exts st) (p_close st) (p_messages st)
    (p_pop st) (p_put st) (p_frag st) (p_pings st) (p_pops st) (p_puts st) v (p_pongs st)
    (p_out st) (p_closing st) (p_eof_written st) (p_aborted st) (p_T st) (p_Tcancel st)
    (p_K st) (p_Kcancel st) (p_C st) (p_users st) (p_now st) (p_in st) (p_delivered st).
Definition set_pongs (v : list fut) st : conn E :=
  Conn (p_state st) (p_reader st) (p_lost st) (p_exts st) (p_close st) (p_messages st)
    (p_pop st) (p_put st) (p_frag st) (p_pings st) (p_pops st) (p_puts st) (p_frags st) v
    (p_out st) (p_closing st) (p_eof_written st) (p_aborted st) (p_T st) (p_Tcancel st)
    (p_K st) (p_Kcancel st) (p_C st) (p_users st) (p_now st) (p_in st) (p_delivered st).
Definition set_out (v : list sent) st : conn E :=
  Conn (p_state st) (p_reader st) (p_lost st) (p_exts st) (p_close st) (p_messages st)
    (p_pop st) (p_put st) (p_frag st) (p_pings st) (p_pops st) (p_puts st) (p_frags st)
    (p_pongs st) v (p_closing st) (p_eof_written st) (p_aborted st) (p_T st) (p_Tcancel st)
    (p_K st) (p_Kcancel st) (p_C st) (p_users st) (p_now st) (p_in st) (p_delivered st).
Definition set_closing (v : bool) st : conn E :=
  Conn (p_state st) (p_reader st) (p_lost st) (p_exts st) (p_close st) (p_messages st)
    (p_pop st) (p_put st) (p_frag st) (p_pings st) (p_pops st) (p_puts st) (p_frags st)
    (p_pongs st) (p_out st) v (p_eof_written st) (p_aborted st) (p_T st) (p_Tcancel st)
    (p_K st) (p_Kcancel st) (p_C st) (p_users st) (p_now st) (p_in st) (p_delivered st).
Definition set_eof_written (v : bool) st : conn E :=
  Conn (p_state st) (p_reader st) (p_lost st) (p_exts st) (p_close st) (p_messages st)
    (p_pop st) (p_put st) (p_frag st) (p_pings st) (p_pops st) (p_puts st) (p_frags st)
    (p_pongs st) (p_out st) (p_closing st) v (p_aborted st) (p_T st) (p_Tcancel st) (p_K st)
    (p_Kcancel st) (p_C st) (p_users st) (p_now st) (p_in st) (p_delivered st).
Definition set_aborted (v : option N) st : conn E :=
  Conn (p_state st) (p_reader st) (p_lost st) (p_exts st) (p_close st) (p_messages st)
    (p_pop st) (p_put st) (p_frag st) (p_pings st) (p_pops st) (p_puts st) (p_frags st)
    (p_pongs st) (p_out st) (p_closing st) (p_eof_written st) v (p_T st) (p_Tcancel st)
    (p_K st) (p_Kcancel st) (p_C st) (p_users st) (p_now st) (p_in st) (p_delivered st).
Definition set_T (v : tpc) st : conn E :=
  Conn (p_state st) (p_reader st) (p_lost st) (p_exts st) (p_close st) (p_messages st)
    (p_pop st) (p_put st) (p_frag st) (p_pings st) (p_pops st) (p_puts st) (p_frags st)
    (p_pongs st) (p_out st) (p_closing st) (p_eof_written st) (p_aborted st) v (p_Tcancel st)
    (p_K st) (p_Kcancel st) (p_C st) (p_users st) (p_now st) (p_in st) (p_delivered st).
Definition set_Tcancel (v : bool) st : conn E :=
  Conn (p_state st) (p_reader st) (p_lost st) (p_exts st) (p_close st) (p_messages st)
    (p_pop st) (p_put st) (p_frag st) (p_pings st) (p_pops st) (p_puts st) (p_frags st)
    (p_pongs st) (p_out st) (p_closing st) (p_eof_written st) (p_aborted st) (p_T st) v
    (p_K st) (p_Kcancel st) (p_C st) (p_users st) (p_now st) (p_in st) (p_delivered st).
Definition set_K (v : kpc) st : conn E :=
  Conn (p_state st) (p_reader st) (p_lost st) (p_exts st) (p_close st) (p_messages st)
    (p_pop st) (p_put st) (p_frag st) (p_pings st) (p_pops st) (p_puts st) (p_frags st)
    (p_pongs st) (p_out st) (p_closing st) (p_eof_written st) (p_aborted st) (p_T st)
    (p_Tcancel st) v (p_Kcancel st) (p_C st) (p_users st) (p_now st) (p_in st) (p_delivered st).
Definition set_Kcancel (v : bool) st : conn E :=
  Conn (p_state st) (p_reader st) (p_lost st) (p_exts st) (p_close st) (p_messages st)
    (p_pop st) (p_put st) (p_frag st) (p_pings st) (p_pops st) (p_puts st) (p_frags st)
    (p_pongs st) (p_out st) (p_closing st) (p_eof_written st) (p_aborted st) (p_T st)
    (p_Tcancel st) (p_K st) v (p_C st) (p_users st) (p_now st) (p_in st) (p_delivered st).
Definition set_C (v : cpc) st : conn E :=
  Conn (p_state st) (p_reader st) (p_lost st) (p_exts st) (p_close st) (p_messages st)
    (p_pop st) (p_put st) (p_frag st) (p_pings st) (p_pops st) (p_puts st) (p_frags st)
    (p_pongs st) (p_out st) (p_closing st) (p_eof_written st) (p_aborted st) (p_T st)
    (p_Tcancel st) (p_K st) (p_Kcancel st) v (p_users st) (p_now st) (p_in st) (p_delivered st).
Definition set_users (v : list (upc * bool)) st : conn E :=
  Conn (p_state st) (p_reader st) (p_lost st) (p_exts st) (p_close st) (p_messages st)
    (p_pop st) (p_put st) (p_frag st) (p_pings st) (p_pops st) (p_puts st) (p_frags st)
    (p_pongs st) (p_out st) (p_closing st) (p_eof_written st) (p_aborted st) (p_T st)
    (p_Tcancel st) (p_K st) (p_Kcancel st) (p_C st) v (p_now st) (p_in st) (p_delivered st).
Definition set_now (v : N) st : conn E :=
  Conn (p_state st) (p_reader st) (p_lost st) (p_exts st) (p_close st) (p_messages st)
    (p_pop st) (p_put st) (p_frag st) (p_pings st) (p_pops st) (p_puts st) (p_frags st)
    (p_pongs st) (p_out st) (p_closing st) (p_eof_written st) (p_aborted st) (p_T st)
    (p_Tcancel st) (p_K st) (p_Kcancel st) (p_C st) (p_users st) v (p_in st) (p_delivered st).
Definition set_in (v : list frame) st : conn E :=
  Conn (p_state st) (p_reader st) (p_lost st) (p_exts st) (p_close st) (p_messages st)
    (p_pop st) (p_put st) (p_frag st) (p_pings st) (p_pops st) (p_puts st) (p_frags st)
    (p_pongs st) (p_out st) (p_closing st) (p_eof_written st) (p_aborted st) (p_T st)
    (p_Tcancel st) (p_K st) (p_Kcancel st) (p_C st) (p_users st) (p_now st) v (p_delivered st).
Definition set_delivered (v : list (nat * message)) st : conn E :=
  Conn (p_state st) (p_reader st) (p_lost st) (p_exts st) (p_close st) (p_messages st)
    (p_pop st) (p_put st) (p_frag st) (p_pings st) (p_pops st) (p_puts st) (p_frags st)
    (p_pongs st) (p_out st) (p_closing st) (p_eof_written st) (p_aborted st) (p_T st)
    (p_Tcancel st) (p_K st) (p_Kcancel st) (p_C st) (p_users st) (p_now st) (p_in st) v.
End Setters.

(* What makes a coroutine run again *)
Inductive next : Type := Item (d : py_data) | Stop | NextRaise (e : exn).
Inductive act : Type :=
| Go                       (* what it waits for is complete, or it was cancelled *)
| GoRand (r : bytes)       (* the same, when it then calls random.getrandbits(32) *)
| Timeout                  (* the timer of asyncio.wait_for fires *)
| DrainOk                  (* drain is complete *)
| DrainErr (o : oserror)   (* drain raises *)
| Next (o : next).         (* __anext__ of an asynchronous iterator is complete *)

Inductive label : Type :=
| LOpen                            (* the opening handshake succeeds *)
| LFail (code : Z)                 (* the opening handshake or the handler fails *)
| LData (data : bytes)             (* data_received *)
| LEof                             (* eof_received *)
| LLost (o : option oserror) (closing : bool)
                                   (* connection_lost; whether transport.is_closing() then *)
| LTick (d : N)                    (* time passes *)
| LCloseTransport                  (* transport.close(), by the handler: legacy/server.py 216 *)
| LCall (c : call)                 (* the user creates a task that makes a call *)
| LCancel (i : nat)                (* the user cancels the i-th call *)
| LT (a : act) | LK (a : act) | LC (a : act) | LUser (i : nat) (a : act).
                                   (* a task or the i-th call runs *)

Section Protocol.
Context {E : Type} (X : ext_ops E) (cfg : config).
Implicit Type st : conn E.

Definition initial (exts : list E) : conn E :=
  Conn Connecting reader_init None exts None [] None None None [] [] [] [] [] [] false false None
       TNone false KNone false CNone [] 0 [] [].

Definition T_exists st : bool := match p_T st with TNone => false | _ => true end.
Definition T_done st : bool := match p_T st with TDone _ => true | _ => false end.
Definition is_lost st : bool := match p_lost st with Some _ => true | None => false end.

(* A list of futures: the state of the w-th one, and an assignment *)
Definition get_fut (futs : list fut) (w : nat) : fut := nth w futs FPending.
Fixpoint replace {A} (w : nat) (v : A) (l : list A) : list A :=
  match l, w with
  | [], _ => []
  | _ :: l', O => v :: l'
  | x :: l', Datatypes.S w' => x :: replace w' v l'
  end.
(* future.set_result(None), which fails if the future is done *)
Definition set_result (w : nat) (futs : list fut) : option (list fut) :=
  if fut_done (get_fut futs w) then None else Some (replace w FResult futs).

(* [timeout] seconds from now *)
Definition deadline st (timeout : option N) : option N :=
  match timeout with Some t => Some (p_now st + t) | None => None end.
Definition expired st (d : option N) : bool :=
  match d with Some d => d <=? p_now st | None => false end.

(* legacy/framing.py 99-126: frame.write(self.transport.write, ...) *)
Definition write st (by_ : writer) (f : frame) : conn E * option exn :=
  let '(exts, r) := serialize X (p_exts st) f (c_client cfg) (c_key cfg (length (p_out st))) in
  let st := set_exts exts st in
  match r with
  | Ok data => (set_out (p_out st ++ [Sent by_ f data]) st, None)
  | Raise e => (st, Some e)
  end.

(* task.cancel() on transfer_data_task: it's ignored once the task is done *)
Definition cancel_T st : conn E :=
  if T_exists st && negb (T_done st) then set_Tcancel true st else st.

(* 1268-1327: fail_connection(code).  It may raise if an extension fails to encode the frame. *)
Definition fail_connection st (code : Z) : conn E * option exn :=
  let st := cancel_T st in
  let '(st, e) :=
    if negb (code =? 1006)%Z && is_open (p_state st) then
      match serialize_close code [] with
      | Raise e => (st, Some e)
      | Ok data => write (set_state Closing st) ByFailure (mkframe true CLOSE data)
      end
    else (st, None) in
  match e with
  | Some e => (st, Some e)
  | None => (match p_C st with CNone => set_C CStart st | _ => st end, None)
  end.

(* 795-803: connection_closed_exc; close_code isn't set before connection_lost *)
Definition connection_closed_exc st : pexn :=
  match p_close st with
  | None => PyExn AttributeError
  | Some (code, reason) =>
      if ((code =? 1000) || (code =? 1001))%Z then ConnectionClosedOK code reason
      else ConnectionClosedError code reason
  end.

(* 805-837: ensure_open returns, raises, or waits for close_connection_task *)
Inductive eres : Type := EOk | ERaise (e : pexn) | EWait.
Definition ensure_open st : eres :=
  match p_state st with
  | Open => if T_done st then EWait else EOk
  | Closed => ERaise (connection_closed_exc st)
  | Closing => EWait
  | Connecting => ERaise (PyExn (InvalidState (s "WebSocket connection isn't established yet")))
  end.
(* the rest of ensure_open, when close_connection_task is done *)
Definition ensure_open_end st : option pexn :=
  match p_C st with
  | CDone (Some e) => Some (PyExn e)
  | CDone None => Some (connection_closed_exc st)
  | _ => None
  end.

(* 1078-1091: write_frame, until it waits for drain *)
Definition write_frame st (by_ : writer) (fin : bool) (op : opcode) (data : bytes) (expected : pstate)
  : conn E * option exn :=
  if negb (pstate_eqb (p_state st) expected) then (st, Some (InvalidState []))
  else write st by_ (mkframe fin op data).

(* 1092-1105: the end of write_frame.  drain raises the exception given to connection_lost, or
   ConnectionResetError once the connection is lost.  None: drain can't end like this. *)
Definition after_drain st (a : act) : option (conn E * eres) :=
  match a with
  | DrainOk => Some (st, EOk)
  | DrainErr o =>
      match p_lost st, o with
      | Some _, ConnectionErr =>
          let '(st, _) := fail_connection st 1006 in Some (st, ensure_open st)
      | Some (Some TimeoutErr), TimeoutErr => Some (st, ERaise (OsError TimeoutErr))
      | Some (Some OtherOsErr), OtherOsErr => Some (st, ERaise (OsError OtherOsErr))
      | _, _ => None
      end
  | _ => None
  end.

(** transfer_data *)

(* 871-906: transfer_data ends with an exception *)
Definition fail_code (e : pexn) : Z :=
  match e with
  | PyExn (ProtocolError _) => 1002
  | OsError ConnectionErr | OsError TimeoutErr | PyExn EOFError => 1006
  | PyExn (UnicodeDecodeError _ _) => 1007
  | PyExn (PayloadTooBig _) => 1009
  | _ => 1011
  end.
Definition T_raise st (e : pexn) : conn E :=
  match e with
  | CancelledError => set_T (TDone None) st
  | _ => let '(st, e') := fail_connection st (fail_code e) in set_T (TDone e') st
  end.

(* 853-869: a message is complete *)
Definition room st : bool :=
  match c_max_queue cfg with Some n => lenN (p_messages st) <? n | None => true end.
Definition put_message st (m : message) : conn E :=
  if room st then
    let st := set_messages (p_messages st ++ [m]) st in
    match p_pop st with
    | None => set_T (TRead RFirst) st
    | Some w =>
        match set_result w (p_pops st) with
        | Some futs => set_T (TRead RFirst) (set_pop None (set_pops futs st))
        | None => T_raise st InvalidStateError
        end
    end
  else
    let w := length (p_puts st) in
    set_T (TPut m w) (set_put (Some w) (set_puts (p_puts st ++ [FPending]) st)).

(* 936-966: append(frame), for a text message *)
Definition minus (max_size : option Z) (data : bytes) : option Z :=
  match max_size with Some m => Some (m - lenZ data)%Z | None => None end.

(* 917-980: what read_message does with a data frame *)
Inductive rres : Type := RMsg (m : message) | RNext (c : rctx) | RExn (e : exn).
Definition text_chunk (chunks : list str) (pending : bytes) (max_size : option Z) (f : frame) : rres :=
  match utf8_inc_decode pending (f_data f) (f_fin f) with
  | (_, Raise e) => RExn e
  | (pending, Ok t) =>
      if f_fin f then RMsg (MText (concat (chunks ++ [t])))
      else RNext (RText (chunks ++ [t]) pending (minus max_size (f_data f)))
  end.
Definition binary_chunk (chunks : list bytes) (max_size : option Z) (f : frame) : rres :=
  if f_fin f then RMsg (MBinary (concat (chunks ++ [f_data f])))
  else RNext (RBinary (chunks ++ [f_data f]) (minus max_size (f_data f))).
Definition read_message (c : rctx) (f : frame) : rres :=
  match c with
  | RFirst =>
      match f_opcode f with
      | TEXT =>
          if f_fin f then
            match utf8_decode (f_data f) with Ok t => RMsg (MText t) | Raise e => RExn e end
          else text_chunk [] [] (c_max_size cfg) f
      | BINARY =>
          if f_fin f then RMsg (MBinary (f_data f)) else binary_chunk [] (c_max_size cfg) f
      | _ => RExn (ProtocolError (s "unexpected opcode"))
      end
  | RText chunks pending max_size =>
      match f_opcode f with
      | CONT => text_chunk chunks pending max_size f
      | _ => RExn (ProtocolError (s "unexpected opcode"))
      end
  | RBinary chunks max_size =>
      match f_opcode f with
      | CONT => binary_chunk chunks max_size f
      | _ => RExn (ProtocolError (s "unexpected opcode"))
      end
  end.

(* 917, 972: max_size for the next frame *)
Definition read_limit (c : rctx) : option Z :=
  match c with RFirst => c_max_size cfg | RText _ _ m | RBinary _ m => m end.

(* 1008, 920, 973: read_data_frame returns None for a close frame *)
Definition after_close st (c : rctx) : conn E :=
  match c with
  | RFirst => set_T (TDone None) st
  | _ => T_raise st (PyExn (ProtocolError (s "incomplete fragmented message")))
  end.

(* 1107-1123: write_close_frame, until it waits for drain; None if there's nothing to write *)
Definition write_close_frame st (by_ : writer) (data : bytes) : conn E * option (option exn) :=
  if is_open (p_state st) then
    let '(st, e) := write_frame (set_state Closing st) by_ true CLOSE data Closing in (st, Some e)
  else (st, None).

(* 1026-1045: acknowledge all pings up to the one matching the pong *)
Fixpoint acknowledge (data : bytes) (pings : list (bytes * nat)) (futs : list fut)
  : list (bytes * nat) * list fut :=
  match pings with
  | [] => ([], futs)
  | (id, w) :: rest =>
      let futs := if fut_done (get_fut futs w) then futs else replace w FResult futs in
      if bytes_eqb id data then (rest, futs) else acknowledge data rest futs
  end.
Definition has_ping st (data : bytes) : bool := existsb (fun p => bytes_eqb (fst p) data) (p_pings st).
Definition find_ping st (data : bytes) : option nat :=
  match find (fun p => bytes_eqb (fst p) data) (p_pings st) with Some p => Some (snd p) | None => None end.
Definition receive_pong st (data : bytes) : conn E :=
  if has_ping st data then
    let '(pings, futs) := acknowledge data (p_pings st) (p_pongs st) in
    set_pings pings (set_pongs futs st)
  else st.

(* 990-1062: read_data_frame and what follows, when a frame was read *)
Definition on_frame st (c : rctx) (f : frame) : conn E :=
  match f_opcode f with
  | CLOSE =>
      match parse_close (f_data f) with
      | Raise e => T_raise st (PyExn e)
      | Ok close =>
          match write_close_frame (set_close (Some close) st) ByTransfer (f_data f) with
          | (st, None) => after_close st c
          | (st, Some None) => set_T (TCloseDrain c) st
          | (st, Some (Some e)) => T_raise st (PyExn e)
          end
      end
  | PING =>
      match ensure_open st with
      | ERaise e => T_raise st e
      | EWait => set_T (TPongEnsure c) st
      | EOk =>
          match write_frame st ByTransfer true PONG (f_data f) Open with
          | (st, Some e) => T_raise st (PyExn e)
          | (st, None) => set_T (TPongDrain c) st
          end
      end
  | PONG => set_T (TRead c) (receive_pong st (f_data f))
  | _ =>
      match read_message c f with
      | RMsg m => put_message st m
      | RNext c => set_T (TRead c) st
      | RExn e => T_raise st (PyExn e)
      end
  end.

(* 1064-1076: read_frame.  None: waiting for more data.  Once connection_lost is called with an
   exception, the stream raises it. *)
Definition read_frame st (c : rctx) : option (conn E) :=
  match p_lost st with
  | Some (Some o) => Some (T_raise st (OsError o))
  | _ =>
      match run (legacy_read X (negb (c_client cfg)) (read_limit c)) (p_reader st) (p_exts st) with
      | OSusp _ _ _ => None
      | OFail e r exts => Some (T_raise (set_reader r (set_exts exts st)) (PyExn e))
      | ODone f r exts =>
          let st := set_in (p_in st ++ [f]) (set_reader r (set_exts exts st)) in
          Some (on_frame st c f)
      end
  end.

Definition is_closed_exn (e : pexn) : bool :=
  match e with ConnectionClosedOK _ _ | ConnectionClosedError _ _ => true | _ => false end.

(* 839-906: transfer_data *)
Definition step_T st (a : act) : option (conn E) :=
  match p_T st with
  | TNone | TDone _ => None
  | pc =>
    if p_Tcancel st then
      match a with
      | Go =>
          let st := match pc with TPut _ _ => set_put None st | _ => st end in
          Some (T_raise st CancelledError)
      | _ => None
      end
    else
      match pc, a with
      | TRead c, Go => read_frame st c
      | TPongDrain c, _ =>
          match after_drain st a with
          | None => None
          | Some (st, EOk) => Some (set_T (TRead c) st)
          | Some (st, ERaise e) => Some (T_raise st e)
          | Some (st, EWait) => Some (set_T (TPongEnsure c) st)
          end
      | TPongEnsure c, Go =>
          match ensure_open_end st with Some e => Some (T_raise st e) | None => None end
      | TCloseDrain c, _ =>
          match after_drain st a with
          | None => None
          | Some (st, EOk) => Some (after_close st c)
          | Some (st, ERaise e) =>
              (* 1003-1006: except ConnectionClosed: pass *)
              Some (if is_closed_exn e then after_close st c else T_raise st e)
          | Some (st, EWait) => Some (set_T (TCloseEnsure c) st)
          end
      | TCloseEnsure c, Go =>
          match ensure_open_end st with
          | Some e => Some (if is_closed_exn e then after_close st c else T_raise st e)
          | None => None
          end
      | TPut m w, Go =>
          if fut_done (get_fut (p_puts st) w) then Some (put_message (set_put None st) m) else None
      | _, _ => None
      end
  end.

(** keepalive_ping *)

(* 755-770: ping, until it waits for drain *)
Definition start_ping st (by_ : writer) (data : bytes) : conn E * option exn :=
  let w := length (p_pongs st) in
  let st := set_pongs (p_pongs st ++ [FPending]) st in
  write_frame (set_pings (p_pings st ++ [(data, w)]) st) by_ true PING data Open.

(* random.getrandbits(32), not used by another ping: 765-766 *)
Definition random_ok st (r : bytes) : bool := (lenN r =? 4) && negb (has_ping st r).

Definition interval : N := match c_ping_interval cfg with Some t => t | None => 0 end.
(* 1152-1166: ping() returns *)
Definition after_ping st (data : bytes) : conn E :=
  match find_ping st data with
  | None => set_K KDone st              (* KeyError at 772, logged at 1175 *)
  | Some w =>
      match c_ping_timeout cfg with
      | None => set_K (KSleep (p_now st + interval)) st
      | Some t => set_K (KPong w (p_now st + t)) st
      end
  end.

(* 1125-1175: keepalive_ping *)
Definition step_K st (a : act) : option (conn E) :=
  match p_K st with
  | KNone | KDone => None
  | pc =>
    if p_Kcancel st then match a with Go => Some (set_K KDone st) | _ => None end
    else
      match pc, a with
      | KStart, Go =>
          match c_ping_interval cfg with
          | None => Some (set_K KDone st)
          | Some t => Some (set_K (KSleep (p_now st + t)) st)
          end
      | KSleep d, GoRand r =>
          if d <=? p_now st then
            match ensure_open st with
            | ERaise _ => Some (set_K KDone st)
            | EWait => Some (set_K KPingEnsure st)
            | EOk =>
                if random_ok st r then
                  match start_ping st ByKeepalive r with
                  | (st, Some _) => Some (set_K KDone st)
                  | (st, None) => Some (set_K (KPingDrain r) st)
                  end
                else None
            end
          else None
      | KPingDrain data, _ =>
          match after_drain st a with
          | None => None
          | Some (st, EOk) => Some (after_ping st data)
          | Some (st, ERaise _) => Some (set_K KDone st)
          | Some (st, EWait) => Some (set_K KPingEnsure st)
          end
      | KPingEnsure, Go =>
          match ensure_open_end st with Some _ => Some (set_K KDone st) | None => None end
      | KPong w d, Go =>
          match get_fut (p_pongs st) w with
          | FPending => None
          | FResult => Some (set_K (KSleep (p_now st + interval)) st)
          | FExn _ => Some (set_K KDone st)
          end
      | KPong w d, Timeout =>
          if d <=? p_now st then
            let '(st, _) := fail_connection st 1011 in Some (set_K KDone st)
          else None
      | _, _ => None
      end
  end.

(** close_connection *)

(* 1220-1245: finally *)
Definition close_tcp st (e : option exn) : conn E :=
  if is_lost st && p_closing st then set_C (CDone e) st
  else
    let st := set_closing true st in
    if is_lost st then set_C (CDone e) st
    else set_C (CLost3 (deadline st (c_close_timeout cfg)) e) st.
(* 1208-1218: half-close *)
Definition half_close st : conn E :=
  if c_can_write_eof cfg then
    let st := set_eof_written true st in
    if is_lost st then close_tcp st None
    else set_C (CLost2 (deadline st (c_close_timeout cfg))) st
  else close_tcp st None.
(* 1197-1206: the data transfer phase is complete *)
Definition after_transfer st : conn E :=
  let st := match p_K st with KNone => st | _ => set_Kcancel true st end in
  if c_client cfg && T_exists st then
    if is_lost st then close_tcp st None
    else set_C (CLost1 (deadline st (c_close_timeout cfg))) st
  else half_close st.

(* 1177-1266: close_connection and wait_for_connection_lost *)
Definition step_C st (a : act) : option (conn E) :=
  match p_C st, a with
  | CStart, Go => Some (if T_exists st then set_C CWaitT st else after_transfer st)
  | CWaitT, Go =>
      match p_T st with
      | TDone None => Some (after_transfer st)
      | TDone (Some e) => Some (close_tcp st (Some e))
      | _ => None
      end
  | CLost1 _, Go | CLost2 _, Go => if is_lost st then Some (close_tcp st None) else None
  | CLost1 d, Timeout =>
      if expired st d then Some (if is_lost st then close_tcp st None else half_close st) else None
  | CLost2 d, Timeout => if expired st d then Some (close_tcp st None) else None
  | CLost3 _ e, Go => if is_lost st then Some (set_C (CDone e) st) else None
  | CLost3 d e, Timeout =>
      if expired st d then
        if is_lost st then Some (set_C (CDone e) st)
        else
          let st := set_aborted (Some (p_now st)) (set_closing true st) in
          Some (set_C (CLost4 (deadline st (c_close_timeout cfg)) e) st)
      else None
  | CLost4 _ e, Go => if is_lost st then Some (set_C (CDone e) st) else None
  | CLost4 d e, Timeout => if expired st d then Some (set_C (CDone e) st) else None
  | _, _ => None
  end.

(** Calls *)

Definition set_user (i : nat) (pc : upc) st : conn E := set_users (replace i (pc, false) (p_users st)) st.
Definition return_ (i : nat) (r : ures) st : conn E := set_user i (UDone r) st.
Definition raise_ (i : nat) (e : pexn) st : conn E := return_ i (RRaise e) st.

(* 523-531: a message is available *)
(* 499-507: otherwise, wait *)
Definition recv_loop st (i : nat) : conn E :=
  match p_messages st with
  | m :: rest =>
      let st := set_messages rest st in
      match p_put st with
      | None => return_ i (RMessage m) (set_delivered (p_delivered st ++ [(i, m)]) st)
      | Some w =>
          match set_result w (p_puts st) with
          | Some futs =>
              return_ i (RMessage m)
                (set_delivered (p_delivered st ++ [(i, m)]) (set_put None (set_puts futs st)))
          | None => raise_ i InvalidStateError st
          end
      end
  | [] =>
      let w := length (p_pops st) in
      let st := set_pops (p_pops st ++ [FPending]) st in
      if T_exists st then set_user i (URecvWait w) (set_pop (Some w) st)
      else raise_ i (PyExn AttributeError) (set_pop None st)
  end.

(* 509-521: asyncio.wait returned *)
Definition recv_resume st (i : nat) (w : nat) : conn E :=
  let st := set_pop None st in
  if fut_done (get_fut (p_pops st) w) then recv_loop st i
  else if c_legacy_recv cfg then return_ i RNone st
  else
    match ensure_open st with
    | EOk => recv_loop st i
    | ERaise e => raise_ i e st
    | EWait => set_user i UEnsure st
    end.

(* 625-627, 667-669: finally *)
Definition end_fragments st (i : nat) (r : ures) : conn E :=
  match p_frag st with
  | None => raise_ i (PyExn AttributeError) st
  | Some w =>
      match set_result w (p_frags st) with
      | Some futs => return_ i r (set_frag None (set_frags futs st))
      | None => raise_ i InvalidStateError st
      end
  end.
(* 619-627, 661-669: an exception in the middle of a fragmented message.  CancelledError isn't an
   Exception since Python 3.8. *)
Definition raise_fragments st (i : nat) (e : pexn) : conn E :=
  match e with
  | CancelledError => end_fragments st i (RRaise e)
  | _ =>
      let '(st, e') := fail_connection st 1011 in
      end_fragments st i (RRaise (match e' with Some e' => PyExn e' | None => e end))
  end.

(* 610-617, 651-659: one more item *)
Definition send_item st (i : nat) (op : opcode) (rest : source) (d : py_data) : conn E :=
  match prepare_data d with
  | Raise e => raise_fragments st i (PyExn e)
  | Ok (op', data) =>
      if negb (opcode_eqb op' op) then raise_fragments st i (PyExn TypeError)
      else
        match write_frame st (ByCall i) false CONT data Open with
        | (st, Some e) => raise_fragments st i (PyExn e)
        | (st, None) => set_user i (UFragDrain op rest) st
        end
  end.
Definition send_last st (i : nat) : conn E :=
  match write_frame st (ByCall i) true CONT [] Open with
  | (st, Some e) => raise_fragments st i (PyExn e)
  | (st, None) => set_user i UFragLast st
  end.
Definition send_next st (i : nat) (op : opcode) (src : source) : conn E :=
  match src with
  | Sync [] None => send_last st i
  | Sync [] (Some e) => raise_fragments st i (PyExn e)
  | Sync (d :: rest) e => send_item st i op (Sync rest e) d
  | Async => set_user i (UANext (Some op)) st
  end.

(* 602-607, 643-648: the first item *)
Definition send_first st (i : nat) (rest : source) (d : py_data) : conn E :=
  match prepare_data d with
  | Raise e => raise_ i (PyExn e) st
  | Ok (op, data) =>
      let w := length (p_frags st) in
      let st := set_frags (p_frags st ++ [FPending]) st in
      match write_frame (set_frag (Some w) st) (ByCall i) false op data Open with
      | (st, Some e) => raise_fragments st i (PyExn e)
      | (st, None) => set_user i (UFragDrain op rest) st
      end
  end.

(* 573-672: send, after ensure_open *)
Definition send_loop st (i : nat) (m : sendable) : conn E :=
  match p_frag st with
  | Some w => set_user i (USendFrag w m) st
  | None =>
      match m with
      | SData d =>
          match prepare_data d with
          | Raise e => raise_ i (PyExn e) st
          | Ok (op, data) =>
              match write_frame st (ByCall i) true op data Open with
              | (st, Some e) => raise_ i (PyExn e) st
              | (st, None) => set_user i UDrain st
              end
          end
      | SDict => raise_ i (PyExn TypeError) st
      | SIter [] None => return_ i RNone st
      | SIter [] (Some e) => raise_ i (PyExn e) st
      | SIter (d :: rest) e => send_first st i (Sync rest e) d
      | SAsync => set_user i (UANext None) st
      | SOther => raise_ i (PyExn TypeError) st
      end
  end.

(* 718: asyncio.wait_for(self.transfer_data_task, ...) *)
Definition close_wait_T st (i : nat) (t0 : N) : conn E :=
  if T_exists st then set_user i (UCloseT (deadline st (c_close_timeout cfg)) t0) st
  else raise_ i (PyExn AttributeError) st.
(* 702-706: except asyncio.TimeoutError *)
Definition close_timed_out st (i : nat) (t0 : N) : conn E :=
  let '(st, _) := fail_connection st 1006 in close_wait_T st i t0.
(* 695-701: the closing frame.  wait_for doesn't start the coroutine if timeout <= 0. *)
Definition close_start st (i : nat) (code : Z) (reason : str) : conn E :=
  match serialize_close code reason with
  | Raise e => raise_ i (PyExn e) st
  | Ok data =>
      match c_close_timeout cfg with
      | Some 0 => close_timed_out st i (p_now st)
      | _ =>
          match write_close_frame st (ByCall i) data with
          | (st, None) => close_wait_T st i (p_now st)
          | (st, Some (Some e)) => raise_ i (PyExn e) st
          | (st, Some None) =>
              set_user i (UCloseWrite (deadline st (c_close_timeout cfg)) (p_now st)) st
          end
      end
  end.

(* A call starts *)
Definition start_call st (i : nat) (c : call) (a : act) : option (conn E) :=
  match c, a with
  (* 484-488 *)
  | CallRecv, Go =>
      Some (match p_pop st with
            | Some _ => raise_ i (PyExn RuntimeError) st
            | None => recv_loop st i
            end)
  (* 571 *)
  | CallSend m, Go =>
      Some (match ensure_open st with
            | EOk => send_loop st i m
            | ERaise e => raise_ i e st
            | EWait => set_user i UEnsure st
            end)
  | CallClose code reason, Go => Some (close_start st i code reason)
  (* 755-770 *)
  | CallPing data, GoRand r =>
      match ensure_open st with
      | ERaise e => Some (raise_ i e st)
      | EWait => Some (set_user i UEnsure st)
      | EOk =>
          match data with
          | Some d =>
              match prepare_ctrl d with
              | Raise e => Some (raise_ i (PyExn e) st)
              | Ok data =>
                  if has_ping st data then Some (raise_ i (PyExn ValueError) st)
                  else
                    match start_ping st (ByCall i) data with
                    | (st, Some e) => Some (raise_ i (PyExn e) st)
                    | (st, None) => Some (set_user i (UPingDrain data) st)
                    end
              end
          | None =>
              if random_ok st r then
                match start_ping st (ByCall i) r with
                | (st, Some e) => Some (raise_ i (PyExn e) st)
                | (st, None) => Some (set_user i (UPingDrain r) st)
                end
              else None
          end
      end
  (* 787-791 *)
  | CallPong d, Go =>
      Some (match ensure_open st with
            | ERaise e => raise_ i e st
            | EWait => set_user i UEnsure st
            | EOk =>
                match prepare_ctrl d with
                | Raise e => raise_ i (PyExn e) st
                | Ok data =>
                    match write_frame st (ByCall i) true PONG data Open with
                    | (st, Some e) => raise_ i (PyExn e) st
                    | (st, None) => set_user i UDrain st
                    end
                end
            end)
  (* 438 *)
  | CallWaitClosed, Go => Some (set_user i UWaitClosed st)
  | _, _ => None
  end.

(* The i-th call is cancelled.  718-724: close() ignores CancelledError while it waits for
   transfer_data_task, which wait_for has cancelled. *)
Definition cancel_call st (i : nat) (pc : upc) : conn E :=
  match pc with
  | URecvWait _ => raise_ i CancelledError (set_pop None st)
  | UFragDrain _ _ | UFragLast | UFragEnsure | UANext (Some _) => raise_fragments st i CancelledError
  | UCloseT _ t0 => set_user i (UCloseT2 t0) (cancel_T st)
  | UCloseT2 t0 => set_user i (UCloseC t0) st
  | _ => raise_ i CancelledError st
  end.

(* The i-th call runs *)
Definition step_call st (i : nat) (pc : upc) (a : act) : option (conn E) :=
  match pc, a with
  | UStart c, _ => start_call st i c a
  | URecvWait w, Go =>
      if fut_done (get_fut (p_pops st) w) || T_done st then Some (recv_resume st i w) else None
  | USendFrag w m, Go => if fut_done (get_fut (p_frags st) w) then Some (send_loop st i m) else None
  | UEnsure, Go => match ensure_open_end st with Some e => Some (raise_ i e st) | None => None end
  | UDrain, _ =>
      match after_drain st a with
      | None => None
      | Some (st, EOk) => Some (return_ i RNone st)
      | Some (st, ERaise e) => Some (raise_ i e st)
      | Some (st, EWait) => Some (set_user i UEnsure st)
      end
  | UFragDrain op src, _ =>
      match after_drain st a with
      | None => None
      | Some (st, EOk) => Some (send_next st i op src)
      | Some (st, ERaise e) => Some (raise_fragments st i e)
      | Some (st, EWait) => Some (set_user i UFragEnsure st)
      end
  | UFragLast, _ =>
      match after_drain st a with
      | None => None
      | Some (st, EOk) => Some (end_fragments st i RNone)
      | Some (st, ERaise e) => Some (raise_fragments st i e)
      | Some (st, EWait) => Some (set_user i UFragEnsure st)
      end
  | UFragEnsure, Go =>
      match ensure_open_end st with Some e => Some (raise_fragments st i e) | None => None end
  | UANext None, Next (Item d) => Some (send_first st i Async d)
  | UANext None, Next Stop => Some (return_ i RNone st)
  | UANext None, Next (NextRaise e) => Some (raise_ i (PyExn e) st)
  | UANext (Some op), Next (Item d) => Some (send_item st i op Async d)
  | UANext (Some op), Next Stop => Some (send_last st i)
  | UANext (Some op), Next (NextRaise e) => Some (raise_fragments st i (PyExn e))
  (* 772 *)
  | UPingDrain data, _ =>
      match after_drain st a with
      | None => None
      | Some (st, EOk) =>
          Some (match find_ping st data with
                | Some w => return_ i (RPing w) st
                | None => raise_ i (PyExn KeyError) st
                end)
      | Some (st, ERaise e) => Some (raise_ i e st)
      | Some (st, EWait) => Some (set_user i UEnsure st)
      end
  | UCloseWrite d t0, Timeout => if expired st d then Some (close_timed_out st i t0) else None
  | UCloseWrite d t0, _ =>
      match after_drain st a with
      | None => None
      | Some (st, EOk) => Some (close_wait_T st i t0)
      | Some (st, ERaise e) => Some (raise_ i e st)
      | Some (st, EWait) => Some (set_user i (UCloseEnsure d t0) st)
      end
  | UCloseEnsure d t0, Timeout => if expired st d then Some (close_timed_out st i t0) else None
  | UCloseEnsure d t0, Go =>
      match ensure_open_end st with Some e => Some (raise_ i e st) | None => None end
  | UCloseT d t0, Timeout =>
      if expired st d then Some (set_user i (UCloseT2 t0) (cancel_T st)) else None
  | UCloseT d t0, Go =>
      match p_T st with
      | TDone None => Some (set_user i (UCloseC t0) st)
      | TDone (Some e) => Some (raise_ i (PyExn e) st)
      | _ => None
      end
  | UCloseT2 t0, Go => if T_done st then Some (set_user i (UCloseC t0) st) else None
  | UCloseC t0, Go =>
      match p_C st with
      | CDone None => Some (return_ i RNone st)
      | CDone (Some e) => Some (raise_ i (PyExn e) st)
      | _ => None
      end
  | UWaitClosed, Go => if is_lost st then Some (return_ i RNone st) else None
  | _, _ => None
  end.
Definition step_user st (i : nat) (a : act) : option (conn E) :=
  match nth_error (p_users st) i with
  | None | Some (UDone _, _) => None
  | Some (pc, true) => match a with Go => Some (cancel_call st i pc) | _ => None end
  | Some (pc, false) => step_call st i pc a
  end.

(** Callbacks of the transport *)

(* 1329-1352: abort_pings; None if a future is done *)
Fixpoint abort_futs (e : pexn) (pings : list (bytes * nat)) (futs : list fut) : list fut * bool :=
  match pings with
  | [] => (futs, true)
  | (_, w) :: rest =>
      if fut_done (get_fut futs w) then (futs, false)
      else abort_futs e rest (replace w (FExn e) futs)
  end.

(* 1379-1414: connection_lost *)
Definition connection_lost st (o : option oserror) (closing : bool) : conn E :=
  let st := set_state Closed (set_closing (p_closing st || closing) st) in
  let st := match p_close st with None => set_close (Some (1006%Z, [])) st | Some _ => st end in
  let '(futs, ok) := abort_futs (connection_closed_exc st) (p_pings st) (p_pongs st) in
  let st := set_pongs futs st in
  if ok then
    set_reader {| r_buffer := r_buffer (p_reader st); r_eof := true |} (set_lost (Some o) st)
  else st.

(* 334-350: connection_open *)
Definition connection_open st : conn E :=
  set_C CStart (set_K KStart (set_T (TRead RFirst) (set_state Open st))).

Definition step st (l : label) : option (conn E) :=
  match l with
  | LOpen =>
      match p_state st, p_C st with
      | Connecting, CNone => Some (connection_open st)
      | _, _ => None
      end
  | LFail code => Some (fst (fail_connection st code))
  (* 1441-1443: data_received *)
  | LData data =>
      if r_eof (p_reader st) then None
      else Some (set_reader {| r_buffer := r_buffer (p_reader st) ++ data; r_eof := false |} st)
  (* 1445-1459: eof_received; the transport closes itself because it returns None *)
  | LEof =>
      if r_eof (p_reader st) then None
      else Some (set_closing true
                   (set_reader {| r_buffer := r_buffer (p_reader st); r_eof := true |} st))
  | LLost o closing =>
      match p_state st with Closed => None | _ => Some (connection_lost st o closing) end
  | LTick d => Some (set_now (p_now st + d) st)
  | LCloseTransport => Some (set_closing true st)
  | LCall c => Some (set_users (p_users st ++ [(UStart c, false)]) st)
  | LCancel i =>
      match nth_error (p_users st) i with
      | None | Some (UDone _, _) => None
      | Some (pc, _) => Some (set_users (replace i (pc, true) (p_users st)) st)
      end
  | LT a => step_T st a
  | LK a => step_K st a
  | LC a => step_C st a
  | LUser i a => step_user st i a
  end.

(* Executions *)
Fixpoint exec st (ls : list label) : option (conn E) :=
  match ls with
  | [] => Some st
  | l :: ls => match step st l with Some st => exec st ls | None => None end
  end.
End Protocol.
