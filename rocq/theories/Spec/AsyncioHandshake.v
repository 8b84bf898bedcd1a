(* Vocabulary for the closing handshake between two endpoints (asyncio API). *)
From Verif Require Import Base.Prelude Model.Frames Model.LegacyFraming Model.LegacyProtocol Spec.Asyncio.
Local Open Scope N_scope.

(* The call is in the middle of close(). *)
Definition in_close (pc : upc) : Prop :=
  match pc with
  | UStart (CallClose _ _) | UCloseWrite _ _ | UCloseEnsure _ _ | UCloseT _ _ | UCloseT2 _ | UCloseC _ => True
  | _ => False
  end.

(* Events that disturb the closing handshake: the application or a server which shuts down fails the
   connection; the transport reports the end of the stream or the loss of the connection; close() is
   cancelled; keepalive or close() times out; and a call to send() raises an exception. *)
Definition disturbs {E} (X : ext_ops E) (cfg : config) (ls : list label) (st : conn E) (l : label) : Prop :=
  match l with
  | LFail _ | LEof | LLost _ _ | LK Timeout | LUser _ Timeout => True
  | LCancel i => exists pc c, nth_error (p_users st) i = Some (pc, c) /\ in_close pc
  | LUser i _ =>
      exists st' m e, step X cfg st l = Some st' /\ nth_error (calls ls) i = Some (CallSend m) /\
        nth_error (p_users st') i = Some (UDone (RRaise e), false)
  | _ => False
  end.
(* Nothing disturbs the closing handshake until the Close frame of the other end is received. *)
Definition undisturbed {E} (X : ext_ops E) (cfg : config) (exts : list E) (ls : list label) : Prop :=
  forall before l after st, ls = before ++ l :: after -> exec X cfg (initial exts) before = Some st ->
    p_close st = None -> ~ disturbs X cfg before st l.

(* transfer_data, the task which reads from the network, has nothing to do. *)
Definition reading_idle {E} (X : ext_ops E) (cfg : config) (st : conn E) : Prop :=
  p_T st <> TNone /\ forall a, step X cfg st (LT a) = None.
(* The last frame received is a ping. *)
Definition last_is_ping {E} (st : conn E) : Prop := exists before f, p_in st = before ++ [f] /\ f_opcode f = PING.
(* A Close frame has been written. *)
Definition wrote_close {E} (st : conn E) : Prop := exists x, In x (p_out st) /\ f_opcode (o_frame x) = CLOSE.
(* transfer_data has finished; close_connection closes the TCP connection. *)
Definition finished {E} (st : conn E) : Prop := exists e, p_T st = TDone e.
(* B's close code and reason are those of a Close frame written by A. *)
Definition close_received {E} (stA stB : conn E) : Prop :=
  exists x code reason, In x (p_out stA) /\ close_frame (o_frame x) code reason /\ p_close stB = Some (code, reason).
