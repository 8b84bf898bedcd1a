(* src/websockets/legacy/protocol.py 440-453: __aiter__, the asynchronous generator behind
   "async for message in websocket". *)
From Verif Require Import Base.Prelude Model.Frames Model.LegacyFraming Model.LegacyProtocol.
Local Open Scope N_scope.

(* Where the generator is: 451, suspended at "yield" or not started yet; 451, awaiting the i-th call,
   which is self.recv(); 453, returned; or terminated by an exception other than ConnectionClosedOK *)
Inductive gpc : Type :=
| GReady
| GRecv (i : nat)
| GReturned
| GRaised (e : pexn).

(* A connection on which a user iterates.  g_yielded: what the generator yielded so far, None standing
   for the value None. *)
Record iteration (E : Type) : Type := Iteration {
  g_conn : conn E;
  g_pc : gpc;
  g_yielded : list (option message)
}.
Arguments Iteration {E} _ _ _.
Arguments g_conn {E} _.
Arguments g_pc {E} _.
Arguments g_yielded {E} _.

(* GConn l: anything happens on the connection, including other calls; GNext: the next message is asked
   for, with __anext__(); GResume: the call to recv() that the generator awaits returned or raised. *)
Inductive glabel : Type := GConn (l : label) | GNext | GResume.

Section Iter.
Context {E : Type} (X : ext_ops E) (cfg : config).
Implicit Type g : iteration E.

(* 450-453.  Simplifications: users have the connection once it's open, because connect() returns
   it and handlers receive it then; recv() runs until its first suspension when the event loop gets to
   it, rather than at once; a task that is cancelled while it iterates cancels the call to recv(), which
   is LCancel i.  recv() never returns RPing. *)
Definition gstep g (l : glabel) : option (iteration E) :=
  match l with
  | GConn l =>
      match step X cfg (g_conn g) l with
      | Some st => Some (Iteration st (g_pc g) (g_yielded g))
      | None => None
      end
  | GNext =>
      match g_pc g with
      | GReady =>
          if T_exists (g_conn g) then
            match step X cfg (g_conn g) (LCall CallRecv) with
            | Some st => Some (Iteration st (GRecv (length (p_users (g_conn g)))) (g_yielded g))
            | None => None
            end
          else None
      | _ => None
      end
  | GResume =>
      match g_pc g with
      | GRecv i =>
          match nth_error (p_users (g_conn g)) i with
          | Some (UDone (RMessage m), _) => Some (Iteration (g_conn g) GReady (g_yielded g ++ [Some m]))
          | Some (UDone (RRaise (ConnectionClosedOK _ _)), _) =>
              Some (Iteration (g_conn g) GReturned (g_yielded g))
          | Some (UDone (RRaise e), _) => Some (Iteration (g_conn g) (GRaised e) (g_yielded g))
          | Some (UDone _, _) => Some (Iteration (g_conn g) GReady (g_yielded g ++ [None]))
          | _ => None
          end
      | _ => None
      end
  end.

Fixpoint gexec g (ls : list glabel) : option (iteration E) :=
  match ls with
  | [] => Some g
  | l :: ls => match gstep g l with Some g => gexec g ls | None => None end
  end.

(* a connection that isn't established yet *)
Definition ginitial (exts : list E) : iteration E := Iteration (initial exts) GReady [].
End Iter.
