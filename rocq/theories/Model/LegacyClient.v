(* Model of Connect in src/websockets/legacy/client.py: await connect(...) and
   async with connect(...), as a transition system on top of the one of Model/LegacyProtocol.v.
   Where connect() connects is in Model/Connect.v and what the handshake does with the response is
   in Model/LegacyHandshake.v.  Simplifications:

   - The bytes of the response are given at once to the step that ends the handshake, and they
     aren't in the buffer of the connection.  The connection may be lost before this step.
   - close() and wait_closed(), when connect() awaits them, are calls like those made by the user.
     They're cancelled when connect() is cancelled.
   - If connect() is cancelled in create_connection, asyncio closes the connection that it was
     making, and it isn't in the model.
   - Like in Model/LegacyProtocol.v, CancelledError isn't an Exception (Python >= 3.8).
   - The attributes set by the handshake other than extensions are left out.
   - The request is built before the response is received: an exception raised when it's built is
     an outcome of the handshake.  Its content is in Model/Client.v.
   - The attribute cc_wsuri of [client_config] isn't used here.
   - Exceptions that aren't in [exn], like OSError, are represented by RuntimeError. *)
From Verif Require Import Base.Prelude Model.Streams Model.Frames Model.Http11 Model.Handshake Model.Client Model.Uri
  Model.LegacyHandshake Model.LegacyFraming Model.LegacyProtocol Model.LegacyServer Model.Connect.
Local Open Scope N_scope.

(* 543-552: the exception raised by the handshake, which is RedirectHandshake or another one *)
Inductive failure : Type := FRedirect (uri : str) | FRaise (e : exn).
(* Where connect() was cancelled *)
Inductive awaiting : Type := InCreateConnection | InHandshake | InWaitClosed.
(* Where connect() is suspended, or how it ended *)
Inductive apc : Type :=
| AConnect                        (* 530: create_connection *)
| AHandshake                      (* 537: handshake(), on the last connection *)
| AFail (f : failure) (i : nat)   (* 546: wait_closed(), the i-th call on the last connection *)
| AReturned                       (* 550 *)
| ARaised (e : exn)
| ACancelled (a : awaiting)
| AExit (i : nat)                 (* 521: close() in __aexit__, the i-th call on the last connection *)
| AExited (r : ures).             (* __aexit__ returned or raised an exception, like close() *)

(* A call to connect(): the instance of Connect, how many values of redirects are left, the TCP
   connections made, the last one first, the attempts (see Model/Connect.v), the first one first *)
Record connecting (E : Type) : Type := Connecting_ {
  k_state : connect_state; k_left : nat; k_conns : list (conn E); k_attempts : list attempt; k_pc : apc }.
Arguments Connecting_ {E}.
Arguments k_state {E} _.
Arguments k_left {E} _.
Arguments k_conns {E} _.
Arguments k_attempts {E} _.
Arguments k_pc {E} _.

(* How the handshake goes: it reads a response to a request with this key, or it ends with another
   exception *)
Inductive hc_event : Type := HcResponse (key : str) (data : bytes) | HcRaise (e : exn).

Inductive klabel : Type :=
| KCreate (o : option exn)        (* create_connection returns, or raises an exception *)
| KConn (k : nat) (l : label)     (* a step of a connection, counted from the last one *)
| KHandshake (o : hc_event)
| KResume                         (* the call that connect() or __aexit__ awaits is complete *)
| KCancel                         (* connect() is cancelled in create_connection or in the handshake *)
| KExit.                          (* __aexit__ is called *)

Section Client.
Context {E : Type} (X : ext_ops E) (cfg : config) (ccfg : client_config E) (ue : uri_env).
Implicit Types (k : connecting E) (st : conn E).

Definition at_pc k (pc : apc) : connecting E := Connecting_ (k_state k) (k_left k) (k_conns k) (k_attempts k) pc.
Definition with_conn k st (old : list (conn E)) (pc : apc) : connecting E :=
  Connecting_ (k_state k) (k_left k) (st :: old) (k_attempts k) pc.

(* 529, 553-554: the next iteration, or the end of the loop *)
Definition k_next k (cs : connect_state) : connecting E :=
  match k_left k with
  | O => at_pc k (ARaised (SecurityError (s "too many redirects")))
  | Datatypes.S n => Connecting_ cs n (k_conns k) (k_attempts k) AConnect
  end.

(* 530 *)
Definition k_create k (o : option exn) : connecting E :=
  match create_connection (cs_connector (k_state k)) with
  | Raise e => at_pc k (ARaised e)
  | Ok (p, tls) =>
      let attempts := k_attempts k ++ [{| at_uri := cs_wsuri (k_state k); at_peer := p; at_tls := tls |}] in
      match o with
      | Some e => Connecting_ (k_state k) (k_left k) (k_conns k) attempts (ARaised e)
      | None => Connecting_ (k_state k) (k_left k) (initial [] :: k_conns k) attempts AHandshake
      end
  end.

(* 544-547: fail_connection() and wait_closed() *)
Definition k_fail k st (old : list (conn E)) (f : failure) : connecting E :=
  let '(st, e) := fail_connection X cfg st 1006 in
  match e with
  | Some e => with_conn k st old (ARaised e)
  | None => with_conn k (start st CallWaitClosed) old (AFail f (length (p_users st)))
  end.

(* 537-550, with the end of handshake (306-331) and the assertion in connection_open
   (legacy/protocol.py 342) *)
Definition k_handshake k (o : hc_event) : option (connecting E) :=
  match k_conns k with
  | [] => None
  | st :: old =>
      match o with
      | HcRaise e => Some (k_fail k st old (FRaise e))
      | HcResponse key data =>
          match read_http_response data with
          | Raise e => Some (k_fail k st old (FRaise e))
          | Ok (status, h) =>
              match legacy_client_handshake ccfg key status h with
              | CeRaise e => Some (k_fail k st old (FRaise e))
              | CeRedirect uri => Some (k_fail k st old (FRedirect uri))
              | CeOpen exts _ =>
                  let st := set_exts exts st in
                  match p_state st, p_C st with
                  | Connecting, CNone => Some (with_conn k (connection_open st) old AReturned)
                  | _, _ => Some (k_fail k st old (FRaise AssertionError))
                  end
              end
          end
      end
  end.

(* 546-552: wait_closed() returns or is cancelled; 521: close() returns or raises *)
Definition k_resume k : option (connecting E) :=
  match k_conns k with
  | [] => None
  | st :: _ =>
      match k_pc k with
      | AFail f i =>
          match nth_error (p_users st) i with
          | Some (UDone (RRaise _), _) => Some (at_pc k (ACancelled InWaitClosed))
          | Some (UDone _, _) =>
              match f with
              | FRaise e => Some (at_pc k (ARaised e))
              | FRedirect uri =>
                  match handle_redirect ue (k_state k) uri with
                  | Raise e => Some (at_pc k (ARaised e))
                  | Ok cs => Some (k_next k cs)
                  end
              end
          | _ => None
          end
      | AExit i =>
          match nth_error (p_users st) i with
          | Some (UDone r, _) => Some (at_pc k (AExited r))
          | _ => None
          end
      | _ => None
      end
  end.

(* 515-521: __aexit__ *)
Definition k_exit k : option (connecting E) :=
  match k_conns k, k_pc k with
  | st :: old, AReturned => Some (with_conn k (start st (CallClose 1000 [])) old (AExit (length (p_users st))))
  | _, _ => None
  end.

Definition kstep k (l : klabel) : option (connecting E) :=
  match l with
  | KCreate o => match k_pc k with AConnect => Some (k_create k o) | _ => None end
  | KConn j l =>
      if own_step l then
        match nth_error (k_conns k) j with
        | None => None
        | Some st =>
            match step X cfg st l with
            | None => None
            | Some st => Some (Connecting_ (k_state k) (k_left k) (replace j st (k_conns k)) (k_attempts k) (k_pc k))
            end
        end
      else None
  | KHandshake o => match k_pc k with AHandshake => k_handshake k o | _ => None end
  | KResume => k_resume k
  | KCancel =>
      match k_pc k with
      | AConnect => Some (at_pc k (ACancelled InCreateConnection))
      | AHandshake => Some (at_pc k (ACancelled InHandshake))
      | _ => None
      end
  | KExit => k_exit k
  end.
Fixpoint kexec k (ls : list klabel) : option (connecting E) :=
  match ls with
  | [] => Some k
  | l :: ls => match kstep k l with Some k => kexec k ls | None => None end
  end.

(* 529: the first iteration *)
Definition kinitial (cs : connect_state) : connecting E :=
  Connecting_ cs (max_redirects_allowed - 1) [] [] AConnect.
End Client.
