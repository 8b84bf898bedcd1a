(* Flow control of the asyncio implementation (legacy/protocol.py): C84. *)
From Verif Require Import Base.Prelude Base.PreludeFacts Model.LegacyProtocol Model.LegacyDrain Spec.AsyncioFlow
  Proofs.LegacyFields Proofs.LegacyDrainFacts.
Local Open Scope N_scope.

(* C84: while the transport's buffer is full, each task writes at most one frame, plus one for each time
   it's cancelled. *)
Theorem C84_backpressure : forall ls1 d1 ls2 d2 i,
  writing ls1 d1 -> full d1 -> writing (ls1 ++ ls2) d2 ->
  ~ In DResume ls2 -> (forall exc, ~ In (DLost exc) ls2) ->
  (writes i ls2 <= 1 + cancels i ls2)%nat.
Proof.
  unfold writing. intros ls1 d1 ls2 d2 i H1 F H2 N1 N2. rewrite dexec_app, H1 in H2.
  pose proof (exec_credit i ls2 ls1 d1 d2 (dexec_inv ls1 d1 H1) H2 F N1 N2) as Q.
  assert (credit d1 i <= 1)%nat; [|lia].
  unfold credit. destruct (nth_error (d_tasks d1) i) as [[[| | |w|e] []]|]; try lia. destruct (get_fut (d_futs d1) w); lia.
Qed.

(* C84: when the event loop has nothing to do, a task that wrote a frame waits only if the transport's
   buffer is full: no task waits after writing is resumed or the connection is lost.  The event loop runs
   out of things to do. *)
Theorem C84_no_lost_wakeup : forall ls d,
  writing ls d -> idle d -> ~ full d -> forall i, ~ waits d i.
Proof. intros ls d H Hi Hf i Hw. apply Hf. apply (waits_blocked ls d i (dexec_inv ls d H) Hi Hw). Qed.
Theorem C84_becomes_idle : forall ls d ls' d',
  writing ls d -> running ls' -> writing (ls ++ ls') d' -> (length ls' <= 3 * length (d_tasks d))%nat.
Proof.
  unfold writing. intros ls d ls' d' H R H'. rewrite dexec_app, H in H'.
  pose proof (running_work ls' d d' R H'). pose proof (work_bound (d_tasks d)). lia.
Qed.

(* C84: writing a frame raises an exception only if the task is cancelled or the connection is lost; then
   it's the exception that broke the connection or ConnectionResetError.  In particular, the assertion in
   _drain_helper never fails. *)
Theorem C84_exceptions : forall ls d i e,
  writing ls d -> write_raised d i e ->
  (e = CancelledError /\ In (DCancel i) ls) \/
  (exists exc, d_lost d = Some exc /\ (e = OsError ConnectionErr \/ exists o, exc = Some o /\ e = OsError o)).
Proof. intros ls d i e H (c & Hi). exact (inv_raised ls d (dexec_inv ls d H) i e c Hi). Qed.

(* Three tasks write frames; writing is paused after the first one. *)
Definition flow_example : list dlabel :=
  [DNew; DNew; DNew; DWrite 0; DRun 0; DPause; DWrite 0; DWrite 1; DRun 1; DWrite 2; DCancel 1; DRun 1; DWrite 1; DRun 0].
Example C84_backpressure_applies :
  exists d, writing flow_example d /\ full d /\ idle d /\ waits d 0 /\ waits d 1 /\ waits d 2 /\ writes 1 flow_example = 2%nat.
Proof.
  eexists. split; [vm_compute; reflexivity|]. split; [split; reflexivity|]. split.
  - intros [|[|[|i]]]; try reflexivity. cbn [dstep]. unfold run_task. cbn [d_tasks nth_error]. now destruct i.
  - split; [|split; [|split; [|reflexivity]]]; (eexists; eexists; split; [reflexivity|]); eauto.
Qed.
Example C84_no_lost_wakeup_applies :
  exists d, writing (flow_example ++ [DResume; DRun 0; DRun 2; DRun 1]) d /\ idle d /\ ~ full d /\ length (d_tasks d) = 3%nat.
Proof.
  eexists. split; [vm_compute; reflexivity|]. split; [|split; [intros [Q _]; discriminate|reflexivity]].
  intros [|[|[|i]]]; try reflexivity. cbn [dstep]. unfold run_task. cbn [d_tasks nth_error]. now destruct i.
Qed.
Example C84_becomes_idle_applies :
  exists d d', writing (flow_example ++ [DResume]) d /\ running [DRun 0; DRun 2; DRun 1] /\
    writing ((flow_example ++ [DResume]) ++ [DRun 0; DRun 2; DRun 1]) d'.
Proof.
  eexists. eexists. split; [vm_compute; reflexivity|]. split; [|vm_compute; reflexivity].
  intros l [<- |[<- |[<- |[]]]]; eauto.
Qed.
Example C84_exceptions_applies :
  exists d, writing (flow_example ++ [DLost (Some TimeoutErr); DRun 0; DRun 2; DClosing; DRun 1]) d /\
    write_raised d 0 (OsError TimeoutErr) /\ write_raised d 1 (OsError TimeoutErr).
Proof. eexists. split; [vm_compute; reflexivity|]. split; eexists; reflexivity. Qed.
(* When the connection is closed normally, a task waiting for the lock gets ConnectionResetError. *)
Example C84_exceptions_applies_reset :
  exists d, writing (flow_example ++ [DClosing; DLost None; DRun 0; DRun 2; DRun 2]) d /\
    write_raised d 2 (OsError ConnectionErr).
Proof. eexists. split; [vm_compute; reflexivity|]. eexists. reflexivity. Qed.

Print Assumptions C84_backpressure.
Print Assumptions C84_no_lost_wakeup.
Print Assumptions C84_becomes_idle.
Print Assumptions C84_exceptions.
