(* src/websockets/legacy/protocol.py 304-332, 1092-1105, 1409-1439: flow control when frames are
   written, that is the end of write_frame, _drain, _drain_helper, pause_writing, resume_writing and the
   end of connection_lost. *)
From Verif Require Import Base.Prelude Model.LegacyProtocol.
Local Open Scope N_scope.

(* Where a task is: doing something else than writing; 1096, waiting for _drain_lock after it wrote a
   frame; 329, in asyncio.sleep(0), with the lock; 313, awaiting a future, with the lock; or write_frame
   raised an exception, before it's handled at 1099-1105; the task may catch it and write again *)
Inductive dpc : Type :=
| DIdle
| DLock
| DYield
| DWait (w : nat)
| DRaised (e : pexn).

(* d_lost: None if connection_lost wasn't called, else its argument; d_closing: transport.is_closing();
   d_waiter: self._drain_waiter, an index in d_futs, the list of the futures created by _drain_helper;
   d_holder: the task that holds _drain_lock; d_tasks: tasks that write frames, and whether their
   cancellation was requested *)
Record drain : Type := Drain {
  d_paused : bool;
  d_lost : option (option oserror);
  d_closing : bool;
  d_waiter : option nat;
  d_futs : list fut;
  d_holder : option nat;
  d_tasks : list (dpc * bool)
}.

(* DNew: another task starts; DWrite i: the i-th task writes a frame; DRun i: the event loop runs the
   i-th task; DCancel i: the i-th task is cancelled; DPause, DResume, DLost exc: the transport calls
   pause_writing, resume_writing, connection_lost; DClosing: the transport is closing. *)
Inductive dlabel : Type :=
| DNew
| DWrite (i : nat)
| DRun (i : nat)
| DCancel (i : nat)
| DPause
| DResume
| DLost (exc : option oserror)
| DClosing.

Definition at_task (d : drain) (i : nat) (pc : dpc) (holder : option nat) : drain :=
  Drain (d_paused d) (d_lost d) (d_closing d) (d_waiter d) (d_futs d) holder (replace i (pc, false) (d_tasks d)).
Definition with_futs (d : drain) (waiter : option nat) (futs : list fut) : drain :=
  Drain (d_paused d) (d_lost d) (d_closing d) waiter futs (d_holder d) (d_tasks d).

(* waiter.cancelled() *)
Definition fut_cancelled (f : fut) : bool := match f with FExn CancelledError => true | _ => false end.

(* 304-313: _drain_helper, by the i-th task, which holds the lock; leaving "async with" releases it *)
Definition drain_helper (d : drain) (i : nat) : drain :=
  match d_lost d with
  | Some _ => at_task d i (DRaised (OsError ConnectionErr)) None
  | None =>
      if negb (d_paused d) then at_task d i DIdle None
      else
        let free := match d_waiter d with None => true | Some w => fut_cancelled (get_fut (d_futs d) w) end in
        if free then
          let w := length (d_futs d) in
          at_task (with_futs d (Some w) (d_futs d ++ [FPending])) i (DWait w) (Some i)
        else at_task d i (DRaised (PyExn AssertionError)) None
  end.

(* 316-332: _drain; the reader's exception is the one given to connection_lost, at 1416 *)
Definition drain_start (d : drain) (i : nat) : drain :=
  match d_lost d with
  | Some (Some o) => at_task d i (DRaised (OsError o)) None
  | _ => if d_closing d then at_task d i DYield (Some i) else drain_helper d i
  end.

(* A task runs until it's suspended again.  asyncio.Lock: when the lock is free, any of the tasks that
   wait for it may take it. *)
Definition run_task (d : drain) (i : nat) : option drain :=
  match nth_error (d_tasks d) i with
  | Some (DLock, true) => Some (at_task d i (DRaised CancelledError) (d_holder d))
  | Some (DYield, true) | Some (DWait _, true) => Some (at_task d i (DRaised CancelledError) None)
  | Some (DLock, false) => match d_holder d with None => Some (drain_start d i) | Some _ => None end
  | Some (DYield, false) => Some (drain_helper d i)
  | Some (DWait w, false) =>
      match get_fut (d_futs d) w with
      | FPending => None
      | FResult => Some (at_task d i DIdle None)
      | FExn e => Some (at_task d i (DRaised e) None)
      end
  | _ => None
  end.

(* asyncio: task.cancel() cancels the future that the task awaits, if it's pending *)
Definition cancel_task (d : drain) (i : nat) : option drain :=
  let cancel pc futs :=
    Some (Drain (d_paused d) (d_lost d) (d_closing d) (d_waiter d) futs (d_holder d)
            (replace i (pc, true) (d_tasks d))) in
  match nth_error (d_tasks d) i with
  | Some (DWait w, _) =>
      cancel (DWait w)
        (match get_fut (d_futs d) w with FPending => replace w (FExn CancelledError) (d_futs d) | _ => d_futs d end)
  | Some (DLock, _) => cancel DLock (d_futs d)
  | Some (DYield, _) => cancel DYield (d_futs d)
  | _ => None
  end.

(* 1431-1439: resume_writing; 1418-1425: the end of connection_lost.  They wake up the task that waits. *)
Definition wake (d : drain) (f : fut) : drain :=
  match d_waiter d with
  | None => d
  | Some w => with_futs d None (if fut_done (get_fut (d_futs d) w) then d_futs d else replace w f (d_futs d))
  end.

(* pause_writing and resume_writing are called in turn (1428, 1432). *)
Definition dstep (d : drain) (l : dlabel) : option drain :=
  match l with
  | DNew =>
      Some (Drain (d_paused d) (d_lost d) (d_closing d) (d_waiter d) (d_futs d) (d_holder d)
              (d_tasks d ++ [(DIdle, false)]))
  | DWrite i =>
      match nth_error (d_tasks d) i with
      | Some (DIdle, _) | Some (DRaised _, _) =>
          Some (Drain (d_paused d) (d_lost d) (d_closing d) (d_waiter d) (d_futs d) (d_holder d)
                  (replace i (DLock, false) (d_tasks d)))
      | _ => None
      end
  | DRun i => run_task d i
  | DCancel i => cancel_task d i
  | DPause =>
      if d_paused d then None
      else Some (Drain true (d_lost d) (d_closing d) (d_waiter d) (d_futs d) (d_holder d) (d_tasks d))
  | DResume =>
      if d_paused d then
        Some (wake (Drain false (d_lost d) (d_closing d) (d_waiter d) (d_futs d) (d_holder d) (d_tasks d)) FResult)
      else None
  | DLost exc =>
      match d_lost d with
      | Some _ => None
      | None =>
          let d := Drain (d_paused d) (Some exc) (d_closing d) (d_waiter d) (d_futs d) (d_holder d) (d_tasks d) in
          Some (if d_paused d then wake d (match exc with None => FResult | Some o => FExn (OsError o) end) else d)
      end
  | DClosing =>
      Some (Drain (d_paused d) (d_lost d) true (d_waiter d) (d_futs d) (d_holder d) (d_tasks d))
  end.
Fixpoint dexec (d : drain) (ls : list dlabel) : option drain :=
  match ls with
  | [] => Some d
  | l :: ls => match dstep d l with Some d => dexec d ls | None => None end
  end.

(* 1356-1377: connection_made *)
Definition dinitial : drain := Drain false None false None [] None [].
