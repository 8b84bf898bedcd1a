(* Model of src/websockets/legacy/server.py: the tasks that handle connections
   (WebSocketServerProtocol.handler) and WebSocketServer, as a transition system on top of the one
   of Model/LegacyProtocol.v.  Simplifications:

   - The bytes of the request are given at once to the step that ends the handshake, and they aren't
     in the buffer of the connection.
   - close() and wait_closed(), when the handler awaits them, are calls like those made by the user.
     They're cancelled when the handler task is cancelled.
   - Each connection has its own clock.
   - The task that closes the server (_close) isn't cancelled.
   - wrap() is called before the first connection.
   - process_request, when it returns a response, returns a correct one.
   - Like in Model/LegacyProtocol.v, CancelledError isn't an Exception (Python >= 3.8).
   - Logging is left out. *)
From Verif Require Import Base.Prelude Model.Streams Model.Frames Model.Http11 Model.Handshake Model.Server
  Model.LegacyHandshake Model.LegacyFraming Model.LegacyProtocol.
Local Open Scope N_scope.

(* Where handler_task is suspended *)
Inductive hpc : Type :=
| HHandshake               (* 132: handshake() *)
| HReject (i : nat)        (* 193: wait_closed(), the i-th call on the connection *)
| HUser                    (* 197: the connection handler *)
| HClose (i : nat)         (* 205: close(), the i-th call on the connection *)
| HDone (cancelled : bool). (* whether it ended with CancelledError *)

(* A connection of the server: the attributes of WebSocketCommonProtocol, handler_task, whether the
   connection is in WebSocketServer.websockets, and the statuses of the HTTP responses written *)
Record peer (E : Type) : Type := Peer {
  h_conn : conn E; h_pc : hpc; h_registered : bool; h_responses : list Z }.
Arguments Peer {E}.
Arguments h_conn {E} _.
Arguments h_pc {E} _.
Arguments h_registered {E} _.
Arguments h_responses {E} _.

(* Where close_task is suspended *)
Inductive spc : Type :=
| SNone                              (* close() hasn't been called *)
| SStart
| SWaitServer                        (* 706 *)
| SSleep                             (* 710 *)
| SWaitClose (calls : list (nat * nat))   (* 720: calls to close(1001) on connections *)
| SWaitHandlers (peers : list nat)   (* 732 *)
| SDone.

Record server (E : Type) : Type := Server {
  s_serving : bool;                  (* server.is_serving() *)
  s_peers : list (peer E);           (* connections made so far *)
  s_close : spc;
  s_closed : bool }.                 (* closed_waiter is done: wait_closed() returns *)
Arguments Server {E}.
Arguments s_serving {E} _.
Arguments s_peers {E} _.
Arguments s_close {E} _.
Arguments s_closed {E} _.

(* How the handshake goes: it reads a request and process_request ends, or it ends with
   ConnectionError, or it's cancelled *)
Inductive hs_event : Type :=
| HsRequest (env : environment) (data : bytes) (hook : result (option http_response))
| HsConnectionError
| HsCancelled.

(* How the connection handler ends *)
Inductive user_end : Type := UserReturns | UserRaises | UserCancelled.

Inductive slabel : Type :=
| SAccept                            (* connection_made *)
| SConn (k : nat) (l : label)        (* a step of the k-th connection *)
| SHandshake (k : nat) (o : hs_event)
| SUserEnds (k : nat) (r : user_end)
| SResume (k : nat)                  (* the call that the handler awaits is complete *)
| SClose                             (* the user calls close() *)
| STask.                             (* close_task runs *)

Section Server.
Context {E : Type} (X : ext_ops E) (cfg : config) (scfg : server_config E).
Implicit Types (p : peer E) (sv : server E).

(* 107-117: connection_made *)
Definition accepted : peer E := Peer (initial []) HHandshake true [].

(* 212-226: the end of handler, after an exception or not *)
Definition close_transport (st : conn E) : conn E := set_closing true st.
Definition h_end p (st : conn E) (cancelled : bool) : peer E := Peer st (HDone cancelled) false (h_responses p).
Definition h_raise p (st : conn E) : peer E := h_end p (close_transport st) false.

(* Start a call on the connection, and wait for it *)
Definition start (st : conn E) (c : call) : conn E := set_users (p_users st ++ [(UStart c, false)]) st.

(* 185-194: write the response and fail the connection *)
Definition h_reject p (st : conn E) (status : Z) : peer E :=
  let '(st, e) := fail_connection X cfg st 1006 in
  match e with
  | Some _ => h_raise p st
  | None => Peer (start st CallWaitClosed) (HReject (length (p_users st))) (h_registered p) (h_responses p ++ [status])
  end.

(* 131-194, with handshake (507-596), which ends with connection_open; its first line is an
   assertion that the connection is CONNECTING *)
Definition h_handshake p (serving : bool) (o : hs_event) : peer E :=
  match o with
  | HsCancelled => h_end p (h_conn p) true
  | HsConnectionError => h_raise p (h_conn p)
  | HsRequest env data hook =>
      let req := read_http_request data in
      match legacy_response env scfg (fun _ _ => hook) serving req with
      | Raise _ => h_raise p (h_conn p)
      | Ok (status, _, Some _) => h_reject p (h_conn p) status
      | Ok (status, _, None) =>
          let exts := match req with
                      | Ok r => match legacy_accept env scfg r with Ok (_, (_, exts, _)) => exts | Raise _ => [] end
                      | Raise _ => []
                      end in
          let st := set_exts exts (h_conn p) in
          let p := Peer st (h_pc p) (h_registered p) (h_responses p ++ [status]) in
          match p_state st, p_C st with
          | Connecting, CNone => Peer (connection_open st) HUser (h_registered p) (h_responses p)
          | _, _ => h_reject p st 500
          end
      end
  end.

(* 196-210: the connection handler ends *)
Definition h_user p (r : user_end) : peer E :=
  let st := h_conn p in
  match r with
  | UserReturns => Peer (start st (CallClose 1000 [])) (HClose (length (p_users st))) (h_registered p) (h_responses p)
  | UserRaises =>
      h_raise p (match p_state st with Closed => st | _ => fst (fail_connection X cfg st 1011) end)
  | UserCancelled => h_end p st true
  end.

(* 193-194, 204-210: wait_closed() or close() returns or raises *)
Definition h_resume p : option (peer E) :=
  match h_pc p with
  | HReject i | HClose i =>
      match nth_error (p_users (h_conn p)) i with
      | Some (UDone (RRaise CancelledError), _) => Some (h_end p (h_conn p) true)
      | Some (UDone (RRaise _), _) => Some (h_raise p (h_conn p))
      | Some (UDone _, _) => Some (h_end p (h_conn p) false)
      | _ => None
      end
  | _ => None
  end.

(* The connections in WebSocketServer.websockets *)
Fixpoint registered (n : nat) (l : list (peer E)) : list nat :=
  match l with
  | [] => []
  | p :: l => if h_registered p then n :: registered (Datatypes.S n) l else registered (Datatypes.S n) l
  end.
(* 717-724: close(1001) is called on registered connections; the calls *)
Definition going_away p : peer E :=
  if h_registered p then Peer (start (h_conn p) (CallClose 1001 [])) (h_pc p) (h_registered p) (h_responses p) else p.
Fixpoint going_away_calls (n : nat) (l : list (peer E)) : list (nat * nat) :=
  match l with
  | [] => []
  | p :: l =>
      if h_registered p then (n, length (p_users (h_conn p))) :: going_away_calls (Datatypes.S n) l
      else going_away_calls (Datatypes.S n) l
  end.
Definition call_done sv (x : nat * nat) : bool :=
  match nth_error (s_peers sv) (fst x) with
  | Some p => match nth_error (p_users (h_conn p)) (snd x) with Some (UDone _, _) => true | _ => false end
  | None => false
  end.
Definition handler_done sv (k : nat) : bool :=
  match nth_error (s_peers sv) k with
  | Some p => match h_pc p with HDone _ => true | _ => false end
  | None => false
  end.

(* 726-738 *)
Definition wait_handlers sv : server E :=
  match registered 0 (s_peers sv) with
  | [] => Server (s_serving sv) (s_peers sv) SDone true
  | l => Server (s_serving sv) (s_peers sv) (SWaitHandlers l) (s_closed sv)
  end.
(* 693-738: _close *)
Definition step_close sv : option (server E) :=
  match s_close sv with
  | SNone | SDone => None
  | SStart => Some (Server false (s_peers sv) SWaitServer (s_closed sv))
  | SWaitServer => Some (Server (s_serving sv) (s_peers sv) SSleep (s_closed sv))
  | SSleep =>
      match going_away_calls 0 (s_peers sv) with
      | [] => Some (wait_handlers sv)
      | l => Some (Server (s_serving sv) (map going_away (s_peers sv)) (SWaitClose l) (s_closed sv))
      end
  | SWaitClose l => if forallb (call_done sv) l then Some (wait_handlers sv) else None
  | SWaitHandlers l =>
      if forallb (handler_done sv) l then Some (Server (s_serving sv) (s_peers sv) SDone true) else None
  end.

(* Steps of a connection other than those taken by its handler *)
Definition own_step (l : label) : bool := match l with LOpen | LFail _ => false | _ => true end.

Definition with_peer sv (k : nat) (f : peer E -> option (peer E)) : option (server E) :=
  match nth_error (s_peers sv) k with
  | None => None
  | Some p =>
      match f p with
      | None => None
      | Some p => Some (Server (s_serving sv) (replace k p (s_peers sv)) (s_close sv) (s_closed sv))
      end
  end.

Definition sstep sv (l : slabel) : option (server E) :=
  match l with
  | SAccept => Some (Server (s_serving sv) (s_peers sv ++ [accepted]) (s_close sv) (s_closed sv))
  | SConn k l =>
      if own_step l then
        with_peer sv k (fun p =>
          match step X cfg (h_conn p) l with
          | None => None
          | Some st => Some (Peer st (h_pc p) (h_registered p) (h_responses p))
          end)
      else None
  | SHandshake k o =>
      with_peer sv k (fun p => match h_pc p with HHandshake => Some (h_handshake p (s_serving sv) o) | _ => None end)
  | SUserEnds k r => with_peer sv k (fun p => match h_pc p with HUser => Some (h_user p r) | _ => None end)
  | SResume k => with_peer sv k h_resume
  (* 689-691: close() *)
  | SClose =>
      Some (match s_close sv with
            | SNone => Server (s_serving sv) (s_peers sv) SStart (s_closed sv)
            | _ => sv
            end)
  | STask => step_close sv
  end.

Definition sinitial : server E := Server true [] SNone false.
Fixpoint sexec sv (ls : list slabel) : option (server E) :=
  match ls with
  | [] => Some sv
  | l :: ls => match sstep sv l with Some sv => sexec sv ls | None => None end
  end.
End Server.
