(* Vocabulary for the properties of servers (legacy/server.py). *)
From Verif Require Import Base.Prelude Model.Frames Model.LegacyFraming Model.LegacyProtocol Model.LegacyServer.
Local Open Scope N_scope.

(* The k-th connection of the server *)
Definition connection {E} (sv : server E) (k : nat) (st : conn E) : Prop :=
  exists p, nth_error (s_peers sv) k = Some p /\ h_conn p = st.
(* The task that handles the k-th connection has ended; it was cancelled or not. *)
Definition handler_returned {E} (sv : server E) (k : nat) : Prop :=
  exists p c, nth_error (s_peers sv) k = Some p /\ h_pc p = HDone c.
Definition handler_cancelled {E} (sv : server E) (k : nat) : Prop :=
  exists p, nth_error (s_peers sv) k = Some p /\ h_pc p = HDone true.
(* The k-th connection is in the set of connections of the server *)
Definition is_registered {E} (sv : server E) (k : nat) : Prop :=
  exists p, nth_error (s_peers sv) k = Some p /\ h_registered p = true.
(* The statuses of the HTTP responses sent on the k-th connection *)
Definition responses {E} (sv : server E) (k : nat) (l : list Z) : Prop :=
  exists p, nth_error (s_peers sv) k = Some p /\ h_responses p = l.

(* The server has stopped listening *)
Definition shutting_down {E} (sv : server E) : Prop := s_serving sv = false.
(* wait_closed() returns *)
Definition server_closed {E} (sv : server E) : Prop := s_closed sv = true.

(* The TCP connection is closed, or it's being closed: transport.close() or transport.abort() was
   called. *)
Definition tcp_closed {E} (st : conn E) : Prop := p_lost st <> None.
Definition tcp_closing {E} (st : conn E) : Prop := p_closing st = true \/ p_aborted st <> None.

(* A connection is made after the closing task has looked for connections: its last look is when it
   starts to wait for the handlers. *)
Definition late {E} (sv : server E) (l : slabel) : Prop :=
  l = SAccept /\ match s_close sv with SWaitHandlers _ | SDone => True | _ => False end.
Definition in_time {E} (X : ext_ops E) cfg scfg (ls : list slabel) : Prop :=
  forall ls1 l ls2 sv, ls = ls1 ++ l :: ls2 -> sexec X cfg scfg sinitial ls1 = Some sv -> ~ late sv l.
