(* Vocabulary for the properties of flow control (legacy/protocol.py). *)
From Verif Require Import Base.Prelude Model.LegacyProtocol Model.LegacyDrain.

(* Tasks write frames, the transport pauses and resumes writing, in any order. *)
Definition writing (ls : list dlabel) (d : drain) : Prop := dexec dinitial ls = Some d.

(* The number of frames that the i-th task writes *)
Definition is_write (i : nat) (l : dlabel) : bool := match l with DWrite j => Nat.eqb i j | _ => false end.
Definition writes (i : nat) (ls : list dlabel) : nat := length (filter (is_write i) ls).

(* A task is waiting: it wrote a frame and it didn't return from send() or another call yet. *)
Definition waits (d : drain) (i : nat) : Prop :=
  exists pc c, nth_error (d_tasks d) i = Some (pc, c) /\ (pc = DLock \/ pc = DYield \/ exists w, pc = DWait w).
(* Writing the last frame raised an exception. *)
Definition write_raised (d : drain) (i : nat) (e : pexn) : Prop :=
  exists c, nth_error (d_tasks d) i = Some (DRaised e, c).
(* The event loop has nothing to do. *)
Definition idle (d : drain) : Prop := forall i, dstep d (DRun i) = None.
(* The event loop runs tasks and nothing else happens. *)
Definition running (ls : list dlabel) : Prop := forall l, In l ls -> exists i, l = DRun i.
(* The number of times the i-th task is cancelled *)
Definition is_cancel (i : nat) (l : dlabel) : bool := match l with DCancel j => Nat.eqb i j | _ => false end.
Definition cancels (i : nat) (ls : list dlabel) : nat := length (filter (is_cancel i) ls).
(* The transport's buffer is full: writing is paused and the connection isn't lost. *)
Definition full (d : drain) : Prop := d_paused d = true /\ d_lost d = None.
