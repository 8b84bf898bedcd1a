(* src/websockets/__main__.py: the interactive client, "python -m websockets <uri>". *)
From Verif Require Import Base.Prelude Model.Frames Model.LegacyFraming Model.LegacyProtocol Model.Exceptions.
Local Open Scope N_scope.

(* What is written to the terminal: 59-76, print_during_input; 79-88, print_over_input *)
Inductive output : Type := During (x : str) | Over (x : str).

(* 59-88: the characters that are written *)
Definition esc (x : str) : str := 27 :: x.
Definition terminal (o : output) : str :=
  match o with
  | During x => esc (s "7") ++ [10] ++ esc (s "[A") ++ esc (s "[L") ++ x ++ [10] ++ esc (s "8") ++ esc (s "[B")
  | Over x => [13] ++ esc (s "[K") ++ x ++ [10]
  end.

(* bytes.hex() *)
Definition hex_digit (n : N) : N := if n <? 10 then 48 + n else 87 + n.
Definition hex (x : bytes) : str :=
  flat_map (fun c => [hex_digit (Byte.to_N c / 16); hex_digit (Byte.to_N c mod 16)]) x.

(* 128-131: a message *)
Definition show (m : message) : output :=
  match m with
  | MText x => During (s "< " ++ x)
  | MBinary x => During (s "< (binary) " ++ hex x)
  end.

(* How the loop at 107-138 was left: 126, recv() raised ConnectionClosed; 138, the user asked for it; or an
   exception was raised at 124, 131 or 135 *)
Inductive exit_cause : Type := PeerClosed | UserStopped | Failed.

(* Where run_client() is: 98, awaiting connect(); 107, at the beginning of the loop, prev being the
   previous call to recv(); 112, awaiting asyncio.wait(), incoming being the i-th call on the connection
   and out the result of outgoing, once it has one; 135, awaiting the j-th call, which is
   websocket.send(), stopping telling if stop is in done; 141, awaiting the k-th call, which is
   websocket.close(), how telling how the loop was left; 102, returned; 146, returned; or terminated by
   an exception at 141 or 142, before calling exit_from_event_loop_thread() *)
Inductive mpc : Type :=
| MConnecting
| MLooping (prev : option nat)
| MWaiting (i : nat) (out : option str)
| MSending (i j : nat) (stopping : bool)
| MClosing (k : nat) (how : exit_cause)
| MNotConnected
| MExited (how : exit_cause)
| MDead (e : pexn).

(* Where the main thread is: 198-202, in input(); 207, in thread.join(); main() returned; or
   KeyboardInterrupt was raised in thread.join() *)
Inductive mthread : Type := Reading | Joining | Finished | Interrupted.

(* What the main thread asks the event loop to run: 202, inputs.put_nowait; 204, stop.set_result *)
Inductive callback : Type := PutLine (x : str) | SetStop.

(* m_out: what was written to the terminal so far; m_typed: what input() returned so far; m_sent: the
   arguments of the calls to websocket.send(), in order; m_inputs: the queue; m_calls: the callbacks that
   didn't run yet; m_stop: stop.done() *)
Record interactive (E : Type) : Type := Interactive {
  m_conn : conn E;
  m_pc : mpc;
  m_out : list output;
  m_typed : list str;
  m_sent : list str;
  m_inputs : list str;
  m_calls : list callback;
  m_stop : bool;
  m_main : mthread
}.
Arguments Interactive {E} _ _ _ _ _ _ _ _ _.
Arguments m_conn {E} _.
Arguments m_pc {E} _.
Arguments m_out {E} _.
Arguments m_typed {E} _.
Arguments m_sent {E} _.
Arguments m_inputs {E} _.
Arguments m_calls {E} _.
Arguments m_stop {E} _.
Arguments m_main {E} _.

(* MConn l: something happens on the connection; MConnected, MConnectFailed x: connect() returned, or
   raised an exception that str() turns into x; MLoop: the tasks created at 108-109 start; MGet:
   inputs.get() returns; MWake: asyncio.wait() returns; MResume: the call at 135 or 141 returned or raised;
   MLine x: the user typed x; MEof: the user typed ^D or ^C; MCallback: the event loop runs a callback
   that the main thread asked for; MJoin: thread.join() returns. *)
Inductive mlabel : Type :=
| MConn (l : label)
| MConnected
| MConnectFailed (x : str)
| MLoop
| MGet
| MWake
| MResume
| MLine (x : str)
| MEof
| MCallback
| MJoin.

(* Only run_client() uses the connection. *)
Definition others (l : label) : bool := match l with LCall _ | LCancel _ => false | _ => true end.

Section Main.
Context {E : Type} (X : ext_ops E) (cfg : config) (uri : str).
Implicit Type g : interactive E.

Definition with_conn st g : interactive E :=
  Interactive st (m_pc g) (m_out g) (m_typed g) (m_sent g) (m_inputs g) (m_calls g) (m_stop g) (m_main g).
Definition with_pc pc g : interactive E :=
  Interactive (m_conn g) pc (m_out g) (m_typed g) (m_sent g) (m_inputs g) (m_calls g) (m_stop g) (m_main g).
Definition with_inputs x g : interactive E :=
  Interactive (m_conn g) (m_pc g) (m_out g) (m_typed g) (m_sent g) x (m_calls g) (m_stop g) (m_main g).
Definition with_calls x g : interactive E :=
  Interactive (m_conn g) (m_pc g) (m_out g) (m_typed g) (m_sent g) (m_inputs g) x (m_stop g) (m_main g).
Definition with_stop x g : interactive E :=
  Interactive (m_conn g) (m_pc g) (m_out g) (m_typed g) (m_sent g) (m_inputs g) (m_calls g) x (m_main g).
Definition with_main x g : interactive E :=
  Interactive (m_conn g) (m_pc g) (m_out g) (m_typed g) (m_sent g) (m_inputs g) (m_calls g) (m_stop g) x.
Definition print o g : interactive E :=
  Interactive (m_conn g) (m_pc g) (m_out g ++ [o]) (m_typed g) (m_sent g) (m_inputs g) (m_calls g) (m_stop g) (m_main g).
Definition typed x g : interactive E :=
  Interactive (m_conn g) (m_pc g) (m_out g) (m_typed g ++ [x]) (m_sent g) (m_inputs g) (m_calls g) (m_stop g) (m_main g).
Definition sending x g : interactive E :=
  Interactive (m_conn g) (m_pc g) (m_out g) (m_typed g) (m_sent g ++ [x]) (m_inputs g) (m_calls g) (m_stop g) (m_main g).

(* a call on the connection or a cancellation *)
Definition on_conn g (l : label) : option (interactive E) :=
  match step X cfg (m_conn g) l with Some st => Some (with_conn st g) | None => None end.

(* 203-204: input() raised KeyboardInterrupt or EOFError *)
Definition end_of_input g : interactive E := with_main Joining (with_calls (m_calls g ++ [SetStop]) g).

(* 45-56: exit_from_event_loop_thread.  KeyboardInterrupt is raised in the main thread. *)
Definition exit_from_event_loop_thread g : interactive E :=
  if m_stop g then g
  else
    match m_main g with
    | Reading => end_of_input g
    | Joining => with_main Interrupted g
    | Finished | Interrupted => g
    end.

(* 140-141: finally *)
Definition finalize g (how : exit_cause) : option (interactive E) :=
  match on_conn g (LCall (CallClose 1000 [])) with
  | Some g' => Some (with_pc (MClosing (length (p_users (m_conn g))) how) g')
  | None => None
  end.

(* 133-138, outgoing being done if out isn't None, and stop being done if stopping *)
Definition after_incoming g (i : nat) (out : option str) (stopping : bool) : option (interactive E) :=
  match out with
  | Some x =>
      match on_conn g (LCall (CallSend (SData (PStr x)))) with
      | Some g' => Some (with_pc (MSending i (length (p_users (m_conn g))) stopping) (sending x g'))
      | None => None
      end
  | None => if stopping then finalize g UserStopped else Some (with_pc (MLooping (Some i)) g)
  end.

(* 116-138: asyncio.wait() returned.  Simplification: a task that is cancelled before it gets a line from
   the queue leaves the queue unchanged. *)
Definition wake g (i : nat) (out : option str) : option (interactive E) :=
  match nth_error (p_users (m_conn g)) i with
  | Some (UDone (RMessage m), _) => after_incoming (print (show m) g) i out (m_stop g)
  | Some (UDone (RRaise (ConnectionClosedOK _ _)), _) | Some (UDone (RRaise (ConnectionClosedError _ _)), _) =>
      finalize g PeerClosed
  | Some (UDone _, _) => finalize g Failed
  | Some _ =>
      if match out with Some _ => true | None => m_stop g end then
        match on_conn g (LCancel i) with
        | Some g => after_incoming g i out (m_stop g)
        | None => None
        end
      else None
  | None => None
  end.

(* Simplifications: connect() returns once the connection is open; before that, what happens to the
   connection doesn't depend on run_client(); the task created at 108 is a call that starts after the
   previous one was terminated by its cancellation, because the event loop runs callbacks in the order
   in which they were scheduled; once the event loop is stopped, it doesn't run the callbacks left; an
   exception that run_client() raises after it called exit_from_event_loop_thread() has no other effect.
   The signal sent at 56 is received by input() or by thread.join(). *)
Definition mstep g (l : mlabel) : option (interactive E) :=
  match l with
  | MConn l => if others l then on_conn g l else None
  | MConnected =>
      match m_pc g with
      | MConnecting =>
          if T_exists (m_conn g) then
            Some (print (During (s "Connected to " ++ uri ++ s ".")) (with_pc (MLooping None) g))
          else None
      | _ => None
      end
  | MConnectFailed x =>
      match m_pc g with
      | MConnecting =>
          Some (exit_from_event_loop_thread (with_pc MNotConnected (print (Over (s "Failed to connect to " ++ uri ++ s ": " ++ x ++ s ".")) g)))
      | _ => None
      end
  | MLoop =>
      match m_pc g with
      | MLooping prev =>
          if match prev with
             | None => true
             | Some i => match nth_error (p_users (m_conn g)) i with Some (UDone _, _) => true | _ => false end
             end then
            match on_conn g (LCall CallRecv) with
            | Some g' => Some (with_pc (MWaiting (length (p_users (m_conn g))) None) g')
            | None => None
            end
          else None
      | _ => None
      end
  | MGet =>
      match m_pc g, m_inputs g with
      | MWaiting i None, x :: rest => Some (with_pc (MWaiting i (Some x)) (with_inputs rest g))
      | _, _ => None
      end
  | MWake =>
      match m_pc g with
      | MWaiting i out => wake g i out
      | _ => None
      end
  | MResume =>
      match m_pc g with
      | MSending i j stopping =>
          match nth_error (p_users (m_conn g)) j with
          | Some (UDone (RRaise _), _) => finalize g Failed
          | Some (UDone _, _) => if stopping then finalize g UserStopped else Some (with_pc (MLooping (Some i)) g)
          | _ => None
          end
      | MClosing k how =>
          match nth_error (p_users (m_conn g)) k with
          | Some (UDone (RRaise e), _) => Some (with_pc (MDead e) g)
          | Some (UDone _, _) =>
              match p_close (m_conn g) with
              | Some (code, reason) =>
                  Some (exit_from_event_loop_thread
                          (with_pc (MExited how)
                             (print (Over (s "Connection closed: " ++ format_close code reason ++ s ".")) g)))
              | None => Some (with_pc (MDead (PyExn AttributeError)) g)
              end
          | _ => None
          end
      | _ => None
      end
  | MLine x =>
      match m_main g with
      | Reading => Some (typed x (with_calls (m_calls g ++ [PutLine x]) g))
      | _ => None
      end
  | MEof =>
      match m_main g with
      | Reading => Some (end_of_input g)
      | _ => None
      end
  | MCallback =>
      match m_pc g, m_calls g with
      | MExited _, _ | MNotConnected, _ => None
      | _, PutLine x :: rest => Some (with_inputs (m_inputs g ++ [x]) (with_calls rest g))
      | _, SetStop :: rest => Some (with_stop true (with_calls rest g))
      | _, [] => None
      end
  | MJoin =>
      match m_main g, m_pc g with
      | Joining, MExited _ | Joining, MNotConnected => Some (with_main Finished g)
      | _, _ => None
      end
  end.

Fixpoint mexec g (ls : list mlabel) : option (interactive E) :=
  match ls with
  | [] => Some g
  | l :: ls => match mstep g l with Some g => mexec g ls | None => None end
  end.

(* 176-191: the connection isn't established yet *)
Definition minitial (exts : list E) : interactive E :=
  Interactive (initial exts) MConnecting [] [] [] [] [] false Reading.
End Main.
