(* Properties of concurrent calls with the asyncio API (C59, C60). *)
From Verif Require Import Base.Prelude Base.PreludeFacts Model.Streams Model.Frames
  Model.LegacyFraming Model.LegacyProtocol Spec.Rfc6455 Spec.Messages Spec.Asyncio
  Proofs.LegacyPrims Proofs.LegacyFields Proofs.LegacyShapes Proofs.LegacyUsers Proofs.LegacyClose
  Proofs.LegacyQueue Proofs.LegacyMessages Proofs.LegacyRecv Proofs.LegacyFragments Properties.FrameCodec Properties.AsyncioState.
Local Open Scope N_scope.

(* ---- C59 ---- *)

Definition no_overtaking {E} (X : ext_ops E) (cfg : config) (exts : list E) (ls : list label) : Prop :=
  forall before l after st, ls = before ++ l :: after -> execution X cfg exts before st -> ~ overtakes st l.

(* A call only raises RuntimeError when another one waits. *)
Theorem C59_no_spurious_error :
  forall E (X : ext_ops E) cfg exts ls st st' i,
    execution X cfg exts ls st ->
    nth_error (p_users st) i = Some (UStart CallRecv, false) ->
    step X cfg st (LUser i Go) = Some st' ->
    nth_error (p_users st') i = Some (UDone (RRaise (PyExn RuntimeError)), false) ->
    exists j w, j <> i /\ waiting st j w.
Proof.
  intros E X cfg exts ls st st' i H Hi H1 Hr.
  destruct (Recv_exec X cfg exts ls st H) as (_ & W & _).
  pose proof (Registered_exec X cfg exts ls st H) as R.
  destruct (step_user_start X cfg st i Go st' false W Hi H1) as [_ [[Q _]|[(_ & Q & _)|(_ & _ & Q & Qr)]]];
    [discriminate| |].
  - destruct (p_pop st) as [w|] eqn:Ep; [|contradiction]. destruct (R w Ep) as [j Hj].
    exists j, w. split; [|exact Hj]. intros ->. destruct Hj as [c Hj]. congruence.
  - exfalso. assert (L : (i < length (p_users st))%nat) by (apply nth_error_Some; congruence).
    subst st'. unfold recv_loop in Hr.
    destruct (p_messages st); [destruct (T_exists _)|destruct (p_put _); [destruct (set_result _ _)|]];
      cbn [p_users set_user set_users set_pop set_pops raise_ return_ set_delivered set_messages set_put set_puts] in Hr;
      rewrite nth_error_replace_eq in Hr by exact L; discriminate.
Qed.

(* When no call overtakes another: *)
Theorem C59_one_call_waits_partial :
  forall E (X : ext_ops E) cfg exts ls st,
    execution X cfg exts ls st -> no_overtaking X cfg exts ls ->
    forall j w j' w', waiting st j w -> waiting st j' w' -> j = j'.
Proof. intros E X cfg exts ls st H N. exact (proj1 (One_exec X cfg exts ls st N H)). Qed.

(* another call raises RuntimeError; *)
Theorem C59_concurrent_call_partial :
  forall E (X : ext_ops E) cfg exts ls st i j w,
    execution X cfg exts ls st -> no_overtaking X cfg exts ls ->
    waiting st j w -> nth_error (p_users st) i = Some (UStart CallRecv, false) ->
    ~ overtakes st (LUser i Go) ->
    exists st', step X cfg st (LUser i Go) = Some st' /\
      nth_error (p_users st') i = Some (UDone (RRaise (PyExn RuntimeError)), false) /\
      waiting st' j w.
Proof.
  intros E X cfg exts ls st i j w H N Hw Hi Ho.
  destruct (proj2 (One_exec X cfg exts ls st N H) j w Hw) as [(A1 & _)|(_ & A2 & _)].
  - exists (raise_ i (PyExn RuntimeError) st).
    split; [cbn [step]; unfold step_user; rewrite Hi; unfold step_call, start_call; now rewrite A1|].
    split; [apply nth_error_replace_eq; apply nth_error_Some; congruence|].
    refine (waiting_replace_back st (raise_ i (PyExn RuntimeError) st) i (UDone (RRaise (PyExn RuntimeError)), false) eq_refl j w Hw _).
    intros ->. destruct Hw as [c Hw]. congruence.
  - exfalso. apply Ho. exists i, Go, false, j, w. split; [reflexivity|]. split; [exact Hi|]. split; [exact Hw|].
    unfold pending, succeeded in *. congruence.
Qed.
(* a call that waits returns the next message as soon as one is available. *)
Theorem C59_woken_partial :
  forall E (X : ext_ops E) cfg exts ls st j w m rest,
    execution X cfg exts ls st -> no_overtaking X cfg exts ls ->
    nth_error (p_users st) j = Some (URecvWait w, false) -> p_messages st = m :: rest ->
    exists st', step X cfg st (LUser j Go) = Some st' /\ p_messages st' = rest /\
      nth_error (p_users st') j = Some (UDone (RMessage m), false).
Proof.
  intros E X cfg exts ls st j w m rest H N Hj Hm.
  assert (L : (j < length (p_users st))%nat) by (apply nth_error_Some; congruence).
  destruct (Recv_exec X cfg exts ls st H) as (_ & (W & _) & _).
  destruct (proj2 (One_exec X cfg exts ls st N H) j w) as [(_ & _ & A)|(A1 & A2 & A3)];
    [now exists false|congruence|].
  cbn [step]. unfold step_user. rewrite Hj. unfold step_call.
  assert (D : fut_done (get_fut (p_pops st) w) = true).
  { unfold get_fut. rewrite (nth_error_nth _ _ _ A2). reflexivity. }
  rewrite D. cbn [orb]. unfold recv_resume. cbv zeta.
  change (p_pops (set_pop None st)) with (p_pops st). rewrite D. unfold recv_loop.
  change (p_messages (set_pop None st)) with (p_messages st). rewrite Hm.
  change (p_put (set_messages rest (set_pop None st))) with (p_put st).
  change (p_puts (set_messages rest (set_pop None st))) with (p_puts st).
  destruct (p_put st) as [w'|] eqn:Ep.
  - rewrite (set_result_pending _ _ (W w' eq_refl)).
    eexists. split; [reflexivity|]. split; [reflexivity|]. now apply nth_error_replace_eq.
  - eexists. split; [reflexivity|]. split; [reflexivity|]. now apply nth_error_replace_eq.
Qed.

(* a way to check no_overtaking *)
Definition overtakes_b {E} (st : conn E) (l : label) : bool :=
  match l with
  | LUser i _ =>
      match nth_error (p_users st) i with
      | Some (UStart CallRecv, _) =>
          existsb (fun u => match fst u with
                            | URecvWait w => match nth_error (p_pops st) w with Some FPending => false | _ => true end
                            | _ => false
                            end) (p_users st)
      | _ => false
      end
  | _ => false
  end.
Lemma overtakes_true {E} (st : conn E) l : overtakes st l -> overtakes_b st l = true.
Proof.
  intros (i & a & c & j & w & -> & Hi & [c' Hj] & Hp). cbn [overtakes_b]. rewrite Hi.
  apply existsb_exists. exists (URecvWait w, c'). split; [eapply nth_error_In, Hj|]. cbn [fst].
  unfold pending in Hp. destruct (nth_error (p_pops st) w) as [[]|]; congruence.
Qed.
Fixpoint no_overtaking_b {E} (X : ext_ops E) (cfg : config) (st : conn E) (ls : list label) : bool :=
  match ls with
  | [] => true
  | l :: ls => negb (overtakes_b st l) &&
               match step X cfg st l with Some st => no_overtaking_b X cfg st ls | None => true end
  end.
Lemma no_overtaking_check {E} (X : ext_ops E) cfg exts ls :
  no_overtaking_b X cfg (initial exts) ls = true -> no_overtaking X cfg exts ls.
Proof.
  unfold no_overtaking, execution. generalize (initial exts). intros st0 H before l after st -> He Ho.
  revert st0 H He. induction before as [|l0 before IH]; cbn [app no_overtaking_b exec]; intros st0 H He;
    apply andb_prop in H as [H1 H2].
  - apply some_inj in He as <-. apply overtakes_true in Ho. rewrite Ho in H1. discriminate.
  - destruct (step X cfg st0 l0) as [st1|]; [|discriminate]. eauto.
Qed.

(* two calls: the second one raises RuntimeError, the first one gets the message *)
Definition ex_concurrent : list label :=
  [LOpen; LCall CallRecv; LUser 0 Go; LCall CallRecv; LUser 1 Go; LData (bs [130; 1; 97]); LT Go].
Example C59_applies :
  no_overtaking no_ext ex_config [] ex_concurrent /\
  exists st, execution no_ext ex_config [] ex_concurrent st /\
  match p_users st, p_messages st with
  | [(URecvWait 0%nat, false); (UDone (RRaise (PyExn RuntimeError)), false)], [MBinary x] => bytes_eqb x (b "a")
  | _, _ => false
  end = true.
Proof.
  split; [apply no_overtaking_check; vm_compute; reflexivity|].
  apply by_executing. vm_compute. reflexivity.
Qed.

(* Otherwise: call 0 waits and is woken up; before it runs, call 1 takes the message and call 2 waits.
   When call 0 runs, it waits again and replaces the future registered by call 2, without
   RuntimeError in any call.  When the next messages arrive, call 2 isn't woken up. *)
Theorem C59_concurrent_call_refuted :
  exists st, execution no_ext ex_config []
    [LOpen; LCall CallRecv; LUser 0 Go; LData (bs [130; 1; 97]); LT Go; LCall CallRecv; LUser 1 Go;
     LCall CallRecv; LUser 2 Go; LUser 0 Go] st /\
  match p_users st with
  | [(URecvWait _, false); (UDone (RMessage _), false); (URecvWait _, false)] => true
  | _ => false
  end = true.
Proof. apply by_executing. vm_compute. reflexivity. Qed.
Theorem C59_woken_refuted :
  exists st, execution no_ext ex_config []
    [LOpen; LCall CallRecv; LUser 0 Go; LData (bs [130; 1; 97]); LT Go; LCall CallRecv; LUser 1 Go;
     LCall CallRecv; LUser 2 Go; LUser 0 Go; LData (bs [130; 1; 98]); LT Go; LUser 0 Go;
     LData (bs [130; 1; 99]); LT Go] st /\
  match p_users st, p_messages st, step no_ext ex_config st (LUser 2 Go) with
  | [_; _; (URecvWait _, false)], [MBinary x], None => bytes_eqb x (b "c")
  | _, _, _ => false
  end = true.
Proof. apply by_executing. vm_compute. reflexivity. Qed.

(* ---- C60 ---- *)

Definition no_overlap {E} (X : ext_ops E) (cfg : config) (exts : list E) (ls : list label) : Prop :=
  forall before l after st, ls = before ++ l :: after -> execution X cfg exts before st ->
    ~ overlaps st l /\ ~ interrupts st l.

(* The data frames written are the frames of complete messages, one after the other, each written by
   a single call, then the frames of at most one message in progress. *)
Theorem C60_not_interleaved_partial :
  forall E (X : ext_ops E) cfg exts ls st,
    execution X cfg exts ls st -> no_overlap X cfg exts ls ->
    exists done current,
      datas (p_out st) = concat done ++ current /\ Forall whole done /\
      (current = [] \/ exists w, begun w current).
Proof.
  intros E X cfg exts ls st H N.
  destruct (Sane_exec X cfg exts ls st N H) as (done & current & S1 & S2 & S3 & _).
  exists done, current. auto.
Qed.

(* a way to check no_overlap *)
Definition fragmenting_b (pc : upc) : bool :=
  match pc with UFragDrain _ _ | UFragLast | UFragEnsure | UANext (Some _) => true | _ => false end.
Definition overlaps_b {E} (st : conn E) (l : label) : bool :=
  match l with
  | LUser i (Next (Item _)) =>
      match nth_error (p_users st) i, p_frag st with Some (UANext None, _), Some _ => true | _, _ => false end
  | LCancel i => match nth_error (p_users st) i with Some (pc, _) => fragmenting_b pc | None => false end
  | _ => false
  end.
Lemma overlaps_true {E} (st : conn E) l : overlaps st l \/ interrupts st l -> overlaps_b st l = true.
Proof.
  intros [(i & d & c & -> & Hi & Hf)|(i & pc & c & -> & Hi & Hf)]; cbn [overlaps_b]; rewrite Hi.
  - destruct (p_frag st); [reflexivity|contradiction].
  - destruct pc as [| | | | | | | |[]| | | | | | | |]; try contradiction; reflexivity.
Qed.
Fixpoint no_overlap_b {E} (X : ext_ops E) (cfg : config) (st : conn E) (ls : list label) : bool :=
  match ls with
  | [] => true
  | l :: ls => negb (overlaps_b st l) &&
               match step X cfg st l with Some st => no_overlap_b X cfg st ls | None => true end
  end.
Lemma no_overlap_check {E} (X : ext_ops E) cfg exts ls :
  no_overlap_b X cfg (initial exts) ls = true -> no_overlap X cfg exts ls.
Proof.
  unfold no_overlap, execution. generalize (initial exts). intros st0 H before l after st -> He.
  revert st0 H He. induction before as [|l0 before IH]; cbn [app no_overlap_b exec]; intros st0 H He;
    apply andb_prop in H as [H1 H2].
  - apply some_inj in He as <-. pose proof (overlaps_true st0 l) as Q. destruct (overlaps_b st0 l); [discriminate|].
    split; intros Ho; enough (false = true) by discriminate; auto.
  - destruct (step X cfg st0 l0) as [st1|]; [|discriminate]. eauto.
Qed.

(* A fragmented message, an asynchronous iterable and a message, sent concurrently: the message
   waits for the end of the fragmented message. *)
Definition ex_sends : list label :=
  [LOpen; LCall (CallSend (SIter [PStr (s "a"); PStr (s "b")] None)); LCall (CallSend SAsync);
   LUser 1 Go; LUser 0 Go; LCall (CallSend (SData (PBytes (b "c")))); LUser 2 Go; LUser 0 DrainOk;
   LUser 0 DrainOk; LUser 0 DrainOk; LUser 1 (Next (Item (PStr (s "d")))); LUser 2 Go; LUser 1 DrainOk;
   LUser 1 (Next Stop); LUser 1 DrainOk; LUser 2 Go].
Example C60_applies :
  no_overlap no_ext ex_config [] ex_sends /\
  exists st, execution no_ext ex_config [] ex_sends st /\
  match map (fun x => (o_by x, f_opcode (o_frame x), f_fin (o_frame x))) (p_out st) with
  | [(ByCall 0%nat, TEXT, false); (ByCall 0%nat, CONT, false); (ByCall 0%nat, CONT, true);
     (ByCall 1%nat, TEXT, false); (ByCall 1%nat, CONT, true); (ByCall 2%nat, BINARY, true)] => true
  | _ => false
  end = true.
Proof.
  split; [apply no_overlap_check; vm_compute; reflexivity|].
  apply by_executing. vm_compute. reflexivity.
Qed.

(* Otherwise: two asynchronous iterables sent concurrently are interleaved *)
Theorem C60_asynchronous_iterables_refuted :
  exists st, execution no_ext ex_config []
    [LOpen; LCall (CallSend SAsync); LCall (CallSend SAsync); LUser 0 Go; LUser 1 Go;
     LUser 0 (Next (Item (PStr (s "a")))); LUser 1 (Next (Item (PStr (s "b"))))] st /\
  match map (fun x => (o_by x, f_opcode (o_frame x), f_fin (o_frame x))) (p_out st) with
  | [(ByCall 0%nat, TEXT, false); (ByCall 1%nat, TEXT, false)] => true
  | _ => false
  end = true.
Proof. apply by_executing. vm_compute. reflexivity. Qed.
(* and a message can be sent after the first fragment of a message whose sending was cancelled. *)
Theorem C60_cancellation_refuted :
  exists st, execution no_ext ex_config []
    [LOpen; LCall (CallSend (SIter [PStr (s "a"); PStr (s "b")] None)); LUser 0 Go; LCancel 0; LUser 0 Go;
     LCall (CallSend (SData (PBytes (b "c")))); LUser 1 Go] st /\
  match map (fun x => (o_by x, f_opcode (o_frame x), f_fin (o_frame x))) (p_out st) with
  | [(ByCall 0%nat, TEXT, false); (ByCall 1%nat, BINARY, true)] => true
  | _ => false
  end = true.
Proof. apply by_executing. vm_compute. reflexivity. Qed.

Print Assumptions C59_no_spurious_error.
Print Assumptions C59_one_call_waits_partial.
Print Assumptions C59_concurrent_call_partial.
Print Assumptions C59_woken_partial.
Print Assumptions C59_concurrent_call_refuted.
Print Assumptions C59_woken_refuted.
Print Assumptions C60_not_interleaved_partial.
Print Assumptions C60_asynchronous_iterables_refuted.
Print Assumptions C60_cancellation_refuted.
