(* Model of the flow control of incoming data: asyncio.StreamReader (Python 3.12) and its transport, as
   used by src/websockets/legacy/protocol.py 236-243, 1377 and 1441-1443.  One task reads at a time:
   the handshake, then the task transfer_data.  Missing: EOF and exceptions, after which no data
   is received, and transports that can't be paused. *)
From Verif Require Import Base.Prelude Model.Streams.
Local Open Scope N_scope.

(* What is being read: readexactly(n) or readline() *)
Inductive reading : Type := ReadExactly (n : N) | ReadLine.
(* rf_paused: StreamReader._paused; rf_flowing: the transport reads from the network;
   rf_reading: the call in progress; rf_waiter: StreamReader._waiter is pending; rf_got: the data that
   calls removed from the buffer, the latest call last (ghost) *)
Record flow : Type := {
  rf_buffer : bytes; rf_paused : bool; rf_flowing : bool; rf_reading : option reading; rf_waiter : bool;
  rf_got : list (reading * bytes) }.
Definition flow_init : flow :=
  {| rf_buffer := []; rf_paused := false; rf_flowing := true; rf_reading := None; rf_waiter := false; rf_got := [] |}.

Section Flow.
Context (read_limit : N).
(* legacy/protocol.py 243 *)
Definition limit : N := read_limit / 2.

(* asyncio/streams.py 499-519: feed_data *)
Definition feed_data (data : bytes) (st : flow) : flow :=
  match data with
  | [] => st
  | _ =>
    let buffer := rf_buffer st ++ data in
    let pause := negb (rf_paused st) && (2 * limit <? lenN buffer) in
    {| rf_buffer := buffer; rf_paused := if pause then true else rf_paused st;
       rf_flowing := if pause then false else rf_flowing st;
       rf_reading := rf_reading st; rf_waiter := false; rf_got := rf_got st |}
  end.

(* asyncio/streams.py 521-543: _wait_for_data, until it waits *)
Definition wait_for_data (r : reading) (st : flow) : flow :=
  {| rf_buffer := rf_buffer st; rf_paused := false;
     rf_flowing := if rf_paused st then true else rf_flowing st;
     rf_reading := Some r; rf_waiter := true; rf_got := rf_got st |}.

(* asyncio/streams.py 486-489: _maybe_resume_transport, at the end of a call that
   removes n bytes from the buffer *)
Definition finish (r : reading) (n : nat) (st : flow) : flow :=
  let buffer := skipn n (rf_buffer st) in
  let resume := rf_paused st && (lenN buffer <=? limit) in
  {| rf_buffer := buffer; rf_paused := if resume then false else rf_paused st;
     rf_flowing := if resume then true else rf_flowing st;
     rf_reading := None; rf_waiter := rf_waiter st;
     rf_got := rf_got st ++ [(r, firstn n (rf_buffer st))] |}.

(* asyncio/streams.py 722-761: readexactly; 549-578 and 580-672: readline; from the start of the loop
   until the call waits or ends *)
Definition attempt (r : reading) (st : flow) : flow :=
  match r with
  | ReadExactly n =>
    if n =? 0 then
      {| rf_buffer := rf_buffer st; rf_paused := rf_paused st; rf_flowing := rf_flowing st; rf_reading := None; rf_waiter := rf_waiter st;
         rf_got := rf_got st ++ [(r, [])] |}
    else if lenN (rf_buffer st) <? n then wait_for_data r st
    else finish r (N.to_nat n) st
  | ReadLine =>
    match find_lf (rf_buffer st) with
    | Some isep => finish r (isep + 1)%nat st    (* found, or longer than limit *)
    | None => if limit <? lenN (rf_buffer st) then finish r (length (rf_buffer st)) st else wait_for_data r st
    end
  end.

(* The transport receives data; the task starts a read; it goes on after _wakeup_waiter *)
Inductive flow_label : Type := FlReceive (data : bytes) | FlRead (r : reading) | FlWake.
Definition flow_step (st : flow) (l : flow_label) : option flow :=
  match l with
  | FlReceive data => if rf_flowing st then Some (feed_data data st) else None
  | FlRead r => match rf_reading st with None => Some (attempt r st) | Some _ => None end
  | FlWake => match rf_reading st with
              | Some r => if rf_waiter st then None else Some (attempt r st)
              | None => None
              end
  end.
Fixpoint flow_run (st : flow) (ls : list flow_label) : option flow :=
  match ls with
  | [] => Some st
  | l :: ls => match flow_step st l with Some st => flow_run st ls | None => None end
  end.
End Flow.
