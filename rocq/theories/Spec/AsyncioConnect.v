(* Vocabulary for the properties of connect() (legacy/client.py). *)
From Verif Require Import Base.Prelude Model.Frames Model.LegacyFraming Model.LegacyProtocol Model.LegacyClient.
Local Open Scope N_scope.

(* The TCP connections made so far by connect(); the last one is the first in the list. *)
Definition connections {E} (k : connecting E) : list (conn E) := k_conns k.
Definition last_connection {E} (k : connecting E) (st : conn E) : Prop :=
  exists older, k_conns k = st :: older.

(* await connect(...) returned a connection *)
Definition connect_returned {E} (k : connecting E) : Prop :=
  match k_pc k with AReturned | AExit _ | AExited _ => True | _ => False end.
(* await connect(...) raised an exception other than CancelledError *)
Definition connect_raised {E} (k : connecting E) (e : exn) : Prop := k_pc k = ARaised e.
(* await connect(...) was cancelled: while it created the TCP connection, during the opening
   handshake, or while it closed the TCP connection after an opening handshake that failed *)
Definition connect_cancelled {E} (k : connecting E) (a : awaiting) : Prop := k_pc k = ACancelled a.
(* the block of async with connect(...) was left and the connection was closed without an exception *)
Definition block_left {E} (k : connecting E) : Prop := k_pc k = AExited RNone.

(* connect() closes the TCP connection, after an opening handshake that failed or a redirect *)
Definition connect_closing {E} (k : connecting E) : Prop := exists f i, k_pc k = AFail f i.

(* Until connect() returns, nobody but connect() has the connection: there are no calls and
   transport.close() isn't called by the user. *)
Definition by_user (l : label) : bool :=
  match l with LCall _ | LCancel _ | LCloseTransport => true | _ => false end.
Definition hands_off (ls : list klabel) : Prop := forall j l, In (KConn j l) ls -> by_user l = false.
(* A TCP connection is closed by the server, or lost *)
Definition server_closes (ls : list klabel) : Prop :=
  exists j, In (KConn j LEof) ls \/ exists o c, In (KConn j (LLost o c)) ls.

(* close_connection_task was created: it closes the TCP connection (C80). *)
Definition closing_task_started {E} (st : conn E) : Prop := p_C st <> CNone.
