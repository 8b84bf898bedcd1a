(* Model of the flow control of outgoing data: the write buffer of an asyncio transport (Python 3.12) and
   the tasks that write frames, in src/websockets/legacy/protocol.py 1078-1105.  Model/LegacyDrain.v
   models the lock and the waiter in detail, but not the size of the buffer.  Missing: the end of
   the connection, and the Close frame that fail_connection writes, once, without draining. *)
From Verif Require Import Base.Prelude.
Local Open Scope N_scope.

(* A task: not writing; it wrote a frame and didn't enter _drain_helper yet; it awaits _drain_waiter; the waiter is done *)
Inductive sender : Type := NotWriting | Wrote | AwaitsDrain | Drained.
(* wf_size: size of the write buffer; wf_paused: _protocol_paused of the transport and _paused of the
   protocol, which pause_writing and resume_writing keep equal (1427-1439) *)
Record wflow : Type := { wf_size : N; wf_paused : bool; wf_tasks : list sender }.
Definition wflow_init (n : nat) : wflow := {| wf_size := 0; wf_paused := false; wf_tasks := repeat NotWriting n |}.

Fixpoint set_task (i : nat) (t : sender) (l : list sender) : list sender :=
  match l, i with
  | [], _ => []
  | _ :: r, O => t :: r
  | x :: r, S i => x :: set_task i t r
  end.

Section Flow.
Context (write_limit : N).
(* legacy/protocol.py 1373 and asyncio/transports.py 314-328 *)
Definition high_water : N := write_limit.
Definition low_water : N := write_limit / 4.

(* asyncio/selector_events.py 1055-1092: write, of which [kept] bytes can't be sent immediately, with
   asyncio/transports.py 277-284: _maybe_pause_protocol *)
Definition transport_write (kept : N) (st : wflow) : wflow :=
  if kept =? 0 then st
  else
    let size := wf_size st + kept in
    {| wf_size := size; wf_paused := if high_water <? size then true else wf_paused st; wf_tasks := wf_tasks st |}.

(* asyncio/transports.py 295-300: _maybe_resume_protocol, with legacy/protocol.py 1431-1439: resume_writing;
   [sent] bytes were written to the network *)
Definition transport_sent (sent : N) (st : wflow) : wflow :=
  let size := wf_size st - sent in
  if wf_paused st && (size <=? low_water) then
    {| wf_size := size; wf_paused := false;
       wf_tasks := map (fun t => match t with AwaitsDrain => Drained | t => t end) (wf_tasks st) |}
  else {| wf_size := size; wf_paused := wf_paused st; wf_tasks := wf_tasks st |}.

(* _drain_lock is held by the task in _drain_helper *)
Definition lock_free (st : wflow) : bool :=
  forallb (fun t => match t with AwaitsDrain | Drained => false | _ => true end) (wf_tasks st).
Definition with_task (i : nat) (t : sender) (st : wflow) : wflow :=
  {| wf_size := wf_size st; wf_paused := wf_paused st; wf_tasks := set_task i t (wf_tasks st) |}.

(* Task i writes a frame (1087-1091); gets the lock and calls _drain_helper (1097-1099, 304-313); returns
   from write_frame; is cancelled in write_frame; the network takes data *)
Inductive wflow_label : Type :=
| WfWrite (i : nat) (kept : N) | WfDrain (i : nat) | WfReturn (i : nat) | WfCancel (i : nat) | WfSent (sent : N).
Definition wflow_step (st : wflow) (l : wflow_label) : option wflow :=
  match l with
  | WfWrite i kept =>
    match nth_error (wf_tasks st) i with
    | Some NotWriting => Some (with_task i Wrote (transport_write kept st))
    | _ => None
    end
  | WfDrain i =>
    match nth_error (wf_tasks st) i with
    | Some Wrote => if lock_free st then Some (with_task i (if wf_paused st then AwaitsDrain else NotWriting) st) else None
    | _ => None
    end
  | WfReturn i =>
    match nth_error (wf_tasks st) i with
    | Some Drained => Some (with_task i NotWriting st)
    | _ => None
    end
  | WfCancel i =>
    match nth_error (wf_tasks st) i with
    | None | Some NotWriting => None
    | Some _ => Some (with_task i NotWriting st)
    end
  | WfSent sent => if sent <=? wf_size st then Some (transport_sent sent st) else None
  end.
Fixpoint wflow_run (st : wflow) (ls : list wflow_label) : option wflow :=
  match ls with
  | [] => Some st
  | l :: ls => match wflow_step st l with Some st => wflow_run st ls | None => None end
  end.
End Flow.
