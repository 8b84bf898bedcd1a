(* What send() writes with the asyncio API (C74). *)
From Verif Require Import Base.Prelude Base.PreludeFacts Model.Streams Model.Frames
  Model.LegacyFraming Model.LegacyProtocol Spec.Rfc6455 Spec.Messages Spec.Utf8Spec Spec.Asyncio
  Proofs.LegacyPrims Proofs.LegacyFields Proofs.LegacyShapes Proofs.LegacyUsers Proofs.LegacyClose
  Proofs.LegacyQueue Proofs.LegacyMessages Proofs.LegacyFragments Proofs.LegacyTiming Proofs.LegacyWriters
  Proofs.LegacySend
  Properties.FrameCodec Properties.AsyncioState.
Local Open Scope N_scope.

(* ---- C74 ---- *)

(* A call which hasn't been made hasn't written anything. *)
Lemma written_future {E} (X : ext_ops E) cfg exts ls st j :
  exec X cfg (initial exts) ls = Some st -> (length (p_users st) <= j)%nat -> written_by (ByCall j) st = [].
Proof.
  intros H. revert j.
  assert (G : (Base st /\ Recv cfg st) /\ forall j, (length (p_users st) <= j)%nat -> written_by (ByCall j) st = []).
  { revert H. apply (exec_steps X cfg (fun st => (Base st /\ Recv cfg st) /\
      forall j, (length (p_users st) <= j)%nat -> written_by (ByCall j) st = [])).
    - intros st1 l st2 [[B R] W] H. split; [split; [eapply Base_step; eauto|eapply Recv_step; eauto]|].
      intros j Hj. assert (L : (length (p_users st1) <= j)%nat).
      { destruct R as (Wt & _). destruct (step_length X cfg _ _ _ Wt H) as [Q|(c & _ & Q)]; rewrite Q in Hj; [lia|].
        rewrite app_length in Hj. lia. }
      rewrite (step_other_written X cfg st1 l st2 j); [now apply W| |exact H].
      intros a ->. cbn [step] in H. unfold step_user in H.
      destruct (nth_error (p_users st1) j) as [[pc c]|] eqn:Hi; [|discriminate].
      assert (nth_error (p_users st1) j <> None) as N by congruence. apply nth_error_Some in N. lia.
    - split; [apply (Recv_exec X cfg exts [] (initial exts)); reflexivity|]. intros j _. reflexivity. }
  exact (proj2 G).
Qed.

(* Whatever happens, the frames that a call to send() writes are the first frames of its message; if it
   returns, it has written all of them. Other calls and tasks may write other frames between them. *)
Theorem C74_send :
  forall E (X : ext_ops E) cfg exts before m after st1 st,
    execution X cfg exts before st1 ->
    execution X cfg exts (before ++ LCall (CallSend m) :: after) st ->
    let i := length (p_users st1) in
    sends_part m (items_of m i after) (written_by (ByCall i) st) /\
    exists pc c, nth_error (p_users st) i = Some (pc, c) /\
      forall r, pc = UDone r ->
        (r = RNone /\ sends_all m (items_of m i after) (written_by (ByCall i) st)) \/
        (exists e, r = RRaise e).
Proof.
  intros E X cfg exts before m after st1 st H1 H i. unfold execution in *.
  pose proof (written_future X cfg exts before st1 i H1 (le_n _)) as Nw.
  rewrite exec_app, H1 in H.
  cbn [exec step] in H. set (st2 := set_users _ st1) in H.
  assert (H2 : exec X cfg (initial exts) (before ++ [LCall (CallSend m)]) = Some st2).
  { rewrite exec_app, H1. reflexivity. }
  destruct (Recv_exec X cfg exts _ st2 H2) as [B2 R2].
  assert (Hi : nth_error (p_users st2) i = Some (UStart (CallSend m), false)).
  { cbn [st2 p_users set_users]. rewrite nth_error_app2 by apply le_n. fold i. now rewrite Nat.sub_diag. }
  destruct (Send_exec X cfg i m st2 after st [] (UStart (CallSend m)) false B2 R2 H Hi) as (pc & c & Q1 & Q2).
  { split; [reflexivity|]. split; [exact Nw|]. intros ->. reflexivity. }
  cbn [app] in Q2. split.
  - unfold Sd in Q2. change (written_by (ByCall i) st) with (W i st). unfold sends_part in *.
    destruct pc as [c0|w|w m0| | |op src| | |[op|]|data|d t|d t|d t|t|t| |r]; try contradiction.
    + now left.
    + now left.
    + exact Q2.
    + right. left. tauto.
    + destruct src as [rest e|].
      * destruct Q2 as (done & -> & Q3 & Q4). right. right. split; [exact Logic.I|]. exists op, done, rest. now split.
      * destruct Q2 as (-> & Q3). right. right. split; [exact Logic.I|]. exists op, (items_of SAsync i after), [].
        split; [now rewrite app_nil_r|exact Q3].
    + now right; left.
    + exact Q2.
    + destruct Q2 as (-> & Q3). right. right. split; [exact Logic.I|]. exists op, (items_of SAsync i after), [].
      split; [now rewrite app_nil_r|exact Q3].
    + left. tauto.
    + destruct r; try contradiction; [right; left; exact Q2|exact Q2].
  - exists pc, c. split; [exact Q1|]. intros r ->. cbn [Sd] in Q2. destruct r; try contradiction; [left|right]; eauto.
Qed.

(* A call which sends a text message, then one which sends an iterable in two fragments, and one which sends
   an asynchronous iterable and is cancelled *)
Example C74_applies :
  exists st, execution no_ext ex_config [] ([LOpen; LC Go; LCall CallRecv] ++ LCall (CallSend (SData (PStr (s "a")))) ::
      [LUser 1 Go; LUser 1 DrainOk]) st /\
    match p_users st, written_by (ByCall 1) st with
    | [_; (UDone RNone, false)], [f] => f_fin f && bytes_eqb (f_data f) (b "a")
    | _, _ => false
    end = true.
Proof. apply by_executing. vm_compute. reflexivity. Qed.
Example C74_applies_fragments :
  exists st, execution no_ext ex_config [] ([LOpen; LC Go] ++
      LCall (CallSend (SIter [PBytes (b "a"); PBytes (b "b")] None)) ::
      [LUser 0 Go; LUser 0 DrainOk; LCall (CallPing None); LUser 1 (GoRand (b "1234")); LUser 0 DrainOk; LUser 0 DrainOk]) st /\
    match p_users st, written_by (ByCall 0) st with
    | [(UDone RNone, false); _], [f; g; h] =>
        negb (f_fin f) && negb (f_fin g) && f_fin h && bytes_eqb (f_data f ++ f_data g ++ f_data h) (b "ab")
    | _, _ => false
    end = true.
Proof. apply by_executing. vm_compute. reflexivity. Qed.
Example C74_applies_cancelled :
  exists st, execution no_ext ex_config [] ([LOpen; LC Go] ++ LCall (CallSend SAsync) ::
      [LUser 0 Go; LUser 0 (Next (Item (PStr (s "a")))); LUser 0 DrainOk; LCancel 0; LUser 0 Go]) st /\
    match p_users st, written_by (ByCall 0) st with
    | [(UDone (RRaise CancelledError), _)], [f] => negb (f_fin f) && bytes_eqb (f_data f) (b "a")
    | _, _ => false
    end = true.
Proof. apply by_executing. vm_compute. reflexivity. Qed.

Print Assumptions C74_send.
