(* No call waits forever once the connection is lost, with the asyncio API (C80). *)
From Verif Require Import Base.Prelude Base.PreludeFacts Base.Utf8 Model.Frames Model.LegacyFraming Model.LegacyProtocol
  Spec.Asyncio Spec.AsyncioKeepalive Spec.AsyncioHang Proofs.LegacyHang Proofs.LegacyKeepalive Proofs.LegacyClose Proofs.LegacyWaiter Proofs.LegacyTermination
  Properties.FrameCodec Properties.AsyncioState.
Local Open Scope N_scope.

(* Calls overlap or are cancelled in ways described in Spec/Asyncio.v and Spec/AsyncioHang.v. *)
Definition never {E} (X : ext_ops E) (cfg : config) (exts : list E) (P : conn E -> label -> Prop) (ls : list label) : Prop :=
  forall before l after st, ls = before ++ l :: after -> execution X cfg exts before st -> ~ P st l.

(* Once the connection is lost and nothing can run any more, every call is complete, unless the
   application must call recv() because the queue of messages is full. *)
Theorem C80_no_call_hangs_partial :
  forall E (X : ext_ops E) cfg exts ls st,
    accepts_control X -> (forall n, length (c_key cfg n) = 4%nat) -> c_close_timeout cfg <> None ->
    execution X cfg exts ls st ->
    never X cfg exts overlaps ls -> never X cfg exts abandons ls -> Forall short_reason ls ->
    ordinary_loss st -> stuck X cfg st ->
    queue_full cfg st \/ forall i, (i < length (p_users st))%nat -> call_done st i.
Proof.
  intros E X cfg exts ls st AC Keys CT H N1 N2 Hs OL SK.
  apply (stuck_done X cfg Keys st); [|exact OL|exact SK].
  apply (J_exec X cfg AC Keys CT exts ls st); [|exact Hs|exact H].
  intros before l after st1 Q1 Q2. split; [exact (N1 before l after st1 Q1 Q2)|exact (N2 before l after st1 Q1 Q2)].
Qed.

(* Once the connection is closed, as long as nothing else is called, received or cancelled, tasks and
   calls run a bounded number of times: they get stuck. *)
Theorem C80_runs_are_bounded :
  forall E (X : ext_ops E) cfg exts ls st, execution X cfg exts ls st -> p_state st = Closed ->
  exists n, forall ls' st', execution X cfg exts (ls ++ ls') st' ->
    Forall (fun l => runs l = true \/ exists d, l = LTick d) ls' -> (length (filter runs ls') <= n)%nat.
Proof.
  intros E X cfg exts ls st H HS. exists (weight st). intros ls' st' H' F. unfold execution in *.
  rewrite exec_app, H in H'.
  pose proof (bounded X cfg st ls' st' HS (exec_fo X cfg _ _ _ H (frag_ok_initial exts)) F H'). lia.
Qed.

(** To show that a concrete state is stuck *)
Definition T_stuck {E} (st : conn E) : bool :=
  match p_T st with
  | TNone | TDone _ => true
  | TPongEnsure _ => negb (p_Tcancel st) && match p_C st with CDone _ => false | _ => true end
  | TPut _ w => negb (p_Tcancel st) && negb (fut_done (get_fut (p_puts st) w))
  | _ => false
  end.
Definition K_stuck {E} (st : conn E) : bool := match p_K st with KNone | KDone => true | _ => false end.
Definition C_stuck {E} (st : conn E) : bool :=
  match p_C st with
  | CNone | CDone _ => true
  | CWaitT => negb (T_done st)
  | _ => false
  end.
Definition user_stuck {E} (st : conn E) (u : upc * bool) : bool :=
  match u with
  | (UDone _, _) => true
  | (URecvWait w, false) => negb (fut_done (get_fut (p_pops st) w)) && negb (T_done st)
  | (USendFrag w _, false) => negb (fut_done (get_fut (p_frags st) w))
  | (UWaitClosed, false) => negb (is_lost st)
  | _ => false
  end.
Definition stuck_b {E} (st : conn E) : bool :=
  T_stuck st && K_stuck st && C_stuck st && forallb (user_stuck st) (p_users st).
Lemma stuck_check {E} (X : ext_ops E) cfg st : stuck_b st = true -> stuck X cfg st.
Proof.
  unfold stuck_b. intros H. apply andb_prop in H as [H HU]. apply andb_prop in H as [H HC]. apply andb_prop in H as [HT HK].
  intros d l Hl. destruct l; try contradiction; cbn [step].
  - unfold T_stuck in HT. unfold step_T. cbn [set_now p_T p_Tcancel p_puts].
    destruct (p_T st); try discriminate; try reflexivity; apply andb_prop in HT as [T1 T2];
      apply negb_true_iff in T1; rewrite T1.
    + destruct a; try reflexivity. unfold ensure_open_end. cbn [set_now p_C]. destruct (p_C st); try discriminate; reflexivity.
    + apply negb_true_iff in T2. rewrite T2. destruct a; reflexivity.
  - unfold K_stuck in HK. unfold step_K. cbn [set_now p_K]. destruct (p_K st); try discriminate; reflexivity.
  - unfold C_stuck in HC. unfold step_C. cbn [set_now p_C p_T]. destruct (p_C st); try discriminate; try reflexivity.
    unfold T_done in HC. destruct (p_T st); try discriminate; destruct a; reflexivity.
  - unfold step_user. cbn [set_now p_users]. destruct (nth_error (p_users st) i) as [[pc c]|] eqn:Hi; [|reflexivity].
    apply nth_error_In in Hi. rewrite forallb_forall in HU. specialize (HU _ Hi). unfold user_stuck in HU.
    destruct pc; destruct c; try discriminate; try reflexivity; cbn [step_call].
    + apply andb_prop in HU as [U1 U2]. apply negb_true_iff in U1, U2. unfold T_done in *. cbn [set_now p_pops p_T].
      rewrite U1, U2. destruct a; reflexivity.
    + apply negb_true_iff in HU. cbn [set_now p_frags]. rewrite HU. destruct a; reflexivity.
    + apply negb_true_iff in HU. unfold is_lost in *. cbn [set_now p_lost]. rewrite HU. destruct a; reflexivity.
Qed.
Definition all_done_b {E} (st : conn E) : bool :=
  forallb (fun u => match u with (UDone _, _) => true | _ => false end) (p_users st).
Definition waits_b {E} (st : conn E) (i : nat) : bool :=
  match nth_error (p_users st) i with Some (UDone _, _) | None => false | Some _ => true end.
Lemma waits_check {E} (st : conn E) i : waits_b st i = true -> (i < length (p_users st))%nat /\ ~ call_done st i.
Proof.
  unfold waits_b, call_done. intros H. split.
  - apply nth_error_Some. intros K. rewrite K in H. discriminate.
  - intros (r & c & K). rewrite K in H. discriminate.
Qed.
Definition full_b {E} (cfg : config) (st : conn E) : bool :=
  match c_max_queue cfg with Some n => n <=? lenN (p_messages st) | None => false end.
Lemma full_check {E} cfg (st : conn E) : full_b cfg st = false -> ~ queue_full cfg st.
Proof.
  unfold full_b. intros H (n & Q & K). rewrite Q in H. apply N.leb_le in K. congruence.
Qed.
Definition ordinary_b {E} (st : conn E) : bool :=
  match p_lost st with Some None | Some (Some ConnectionErr) => true | _ => false end.
Lemma ordinary_check {E} (st : conn E) : ordinary_b st = true -> ordinary_loss st.
Proof. unfold ordinary_b, ordinary_loss. destruct (p_lost st) as [[[]|]|]; try discriminate; auto. Qed.
(* executions without cancellations nor asynchronous iterables *)
Definition plain (l : label) : bool := match l with LCancel _ | LUser _ (Next _) => false | _ => true end.
Lemma plain_never {E} (X : ext_ops E) cfg exts ls : forallb plain ls = true ->
  never X cfg exts overlaps ls /\ never X cfg exts abandons ls.
Proof.
  intros H. rewrite forallb_forall in H. split; intros before l after st -> _.
  - intros (i & d & c & -> & _). specialize (H (LUser i (Next (Item d))) (in_elt _ _ _)). discriminate.
  - intros (i & d & t & c & -> & _). specialize (H (LCancel i) (in_elt _ _ _)). discriminate.
Qed.
Lemma by_executing' cfg ls (P : conn Empty_set -> bool) (Q : conn Empty_set -> Prop) :
  (forall st, P st = true -> Q st) ->
  match exec no_ext cfg (initial []) ls with Some st => P st | None => false end = true ->
  exists st, execution no_ext cfg [] ls st /\ Q st.
Proof. intros HP H. destruct (by_executing cfg ls P H) as (st & A & B). exists st. auto. Qed.
Lemma no_ext_accepts : accepts_control no_ext.
Proof. intros []. Qed.

Example C80_runs_are_bounded_applies :
  exists st, execution no_ext ex_config []
    [LOpen; LC Go; LK Go; LCall CallRecv; LUser 0 Go; LData (bs [129; 1; 97; 129; 1; 98; 137; 0]); LLost None true] st /\
    match p_state st with Closed => true | _ => false end = true.
Proof. apply by_executing. vm_compute. reflexivity. Qed.
Example C80_runs_are_bounded_continues :
  exists st, execution no_ext ex_config []
    ([LOpen; LC Go; LK Go; LCall CallRecv; LUser 0 Go; LData (bs [129; 1; 97; 129; 1; 98; 137; 0]); LLost None true] ++
     [LT Go; LUser 0 Go; LT Go; LT Go; LC Go; LTick 20; LK Go]) st /\ stuck_b st = true.
Proof. apply by_executing. vm_compute. reflexivity. Qed.

(* recv(), send(), ping() and close() are waiting, or have just been called, when the connection is lost;
   they complete. *)
Definition ex_lost : list label :=
  [LOpen; LC Go; LK Go;
   LCall CallRecv; LUser 0 Go;
   LCall (CallSend (SIter [PStr (s "a"); PStr (s "b")] None)); LUser 1 Go;
   LCall (CallSend (SData (PBytes (b "c")))); LUser 2 Go;
   LCall (CallPing (Some (PBytes (b "d")))); LUser 3 (GoRand []);
   LCall (CallClose 1000 []); LUser 4 Go;
   LData (bs [137; 0]); LT Go;
   LCall CallWaitClosed; LUser 5 Go;
   LLost None true;
   LUser 1 DrainOk; LUser 2 Go; LUser 3 DrainOk; LUser 4 DrainOk;
   LUser 5 Go; LTick 20; LUser 4 Timeout; LT Go; LUser 4 Go; LC Go; LUser 4 Go; LUser 0 Go; LK Go].
Example C80_no_call_hangs_applies :
  accepts_control no_ext /\ (forall n, length (c_key ex_config n) = 4%nat) /\ c_close_timeout ex_config <> None /\
  never no_ext ex_config [] overlaps ex_lost /\ never no_ext ex_config [] abandons ex_lost /\ Forall short_reason ex_lost /\
  exists st, execution no_ext ex_config [] ex_lost st /\
    ordinary_loss st /\ stuck no_ext ex_config st /\ ~ queue_full ex_config st /\ length (p_users st) = 6%nat.
Proof.
  split; [apply no_ext_accepts|]. split; [reflexivity|]. split; [discriminate|].
  destruct (plain_never no_ext ex_config [] ex_lost) as [A B]; [reflexivity|].
  split; [exact A|]. split; [exact B|]. split.
  { unfold ex_lost. repeat (apply Forall_cons; [intros ? ? ? K; discriminate K ||
      (injection K as <- <-; intros Q; apply ok_inj in Q as <-; vm_compute; discriminate)|]). apply Forall_nil. }
  apply (by_executing' ex_config ex_lost
    (fun st => ordinary_b st && stuck_b st && negb (full_b ex_config st) && (length (p_users st) =? 6)%nat)).
  - intros st H. apply andb_prop in H as [H H4]. apply andb_prop in H as [H H3]. apply andb_prop in H as [H1 H2].
    split; [now apply ordinary_check|]. split; [now apply stuck_check|].
    split; [apply full_check; now apply negb_true_iff|]. now apply Nat.eqb_eq.
  - vm_compute. reflexivity.
Qed.

(* When the queue is full, wait_closed() waits until recv() is called. *)
Example C80_full_queue :
  exists st, execution no_ext ex_config []
    [LOpen; LC Go; LK Go; LCall CallWaitClosed; LUser 0 Go; LData (bs [130; 1; 97; 130; 1; 98]); LT Go;
     LCall (CallClose 1000 []); LUser 1 Go; LUser 1 DrainOk; LLost None true] st /\
    queue_full ex_config st.
Proof.
  apply (by_executing' ex_config _ (fun st => full_b ex_config st)).
  - intros st H. unfold full_b in H. exists 1. split; [reflexivity|]. now apply N.leb_le.
  - vm_compute. reflexivity.
Qed.

(** Otherwise *)
(* The i-th call never completes, although the connection is lost and messages can be received. *)
Definition hangs (cfg : config) (st : conn Empty_set) (i : nat) : Prop :=
  stuck no_ext cfg st /\ ~ queue_full cfg st /\ (i < length (p_users st))%nat /\ ~ call_done st i.
Lemma hangs_check cfg (Q : conn Empty_set -> bool) ls i :
  match exec no_ext cfg (initial []) ls with
  | Some st => Q st && stuck_b st && negb (full_b cfg st) && waits_b st i
  | None => false
  end = true -> exists st, execution no_ext cfg [] ls st /\ Q st = true /\ hangs cfg st i.
Proof.
  apply (by_executing' cfg ls (fun st => Q st && stuck_b st && negb (full_b cfg st) && waits_b st i)).
  intros st H. apply andb_prop in H as [H H4]. apply andb_prop in H as [H H3]. apply andb_prop in H as [H1 H2].
  split; [exact H1|]. split; [now apply stuck_check|]. split; [apply full_check; now apply negb_true_iff|].
  now apply waits_check.
Qed.

Lemma ordinary_hangs_check cfg (Q : conn Empty_set -> bool) ls i :
  match exec no_ext cfg (initial []) ls with
  | Some st => (ordinary_b st && Q st) && stuck_b st && negb (full_b cfg st) && waits_b st i
  | None => false
  end = true -> exists st, execution no_ext cfg [] ls st /\ ordinary_loss st /\ Q st = true /\ hangs cfg st i.
Proof.
  intros H. destruct (hangs_check cfg (fun st => ordinary_b st && Q st) ls i H) as (st & A & B & C).
  apply andb_prop in B as [B1 B2]. exists st. split; [exact A|]. split; [now apply ordinary_check|]. now split.
Qed.

(* close() is cancelled while it sends the Close frame; then a ping is received: transfer_data waits for
   close_connection, which waits for transfer_data. *)
Theorem C80_cancelled_close_refuted :
  exists st, execution no_ext ex_config []
    [LOpen; LC Go; LK Go; LCall CallRecv; LUser 0 Go; LCall (CallClose 1000 []); LUser 1 Go; LCancel 1; LUser 1 Go;
     LData (bs [137; 0]); LT Go; LLost None true; LTick 20; LK (GoRand [])] st /\
  ordinary_loss st /\ hangs ex_config st 0.
Proof.
  match goal with |- exists st, execution _ _ _ ?ls st /\ _ /\ hangs _ st ?i =>
    destruct (ordinary_hangs_check ex_config (fun _ => true) ls i) as (st & A & B & _ & C) end; [vm_compute; reflexivity|].
  exists st. auto.
Qed.
(* The same happens when close() raises ProtocolError because the reason is too long, *)
Theorem C80_long_reason_refuted :
  exists st, execution no_ext ex_config []
    [LOpen; LC Go; LK Go; LCall CallRecv; LUser 0 Go; LCall (CallClose 1000 (repeat 97 124)); LUser 1 Go;
     LData (bs [137; 0]); LT Go; LLost None true; LTick 20; LK (GoRand [])] st /\
  ordinary_loss st /\
  match nth_error (p_users st) 1 with Some (UDone (RRaise (PyExn (ProtocolError _))), _) => true | _ => false end = true /\
  hangs ex_config st 0.
Proof. apply ordinary_hangs_check. vm_compute. reflexivity. Qed.
(* or because the connection is lost with an error that isn't a ConnectionError. *)
Theorem C80_os_error_refuted :
  exists st, execution no_ext ex_config []
    [LOpen; LC Go; LK Go; LCall CallRecv; LUser 0 Go; LCall (CallClose 1000 []); LUser 1 Go;
     LData (bs [137; 0]); LT Go; LLost (Some OtherOsErr) true; LUser 1 (DrainErr OtherOsErr); LTick 20; LK (GoRand [])] st /\
  match nth_error (p_users st) 1 with Some (UDone (RRaise (OsError OtherOsErr)), _) => true | _ => false end = true /\
  hangs ex_config st 0.
Proof. apply hangs_check. vm_compute. reflexivity. Qed.
(* When two asynchronous iterables are sent concurrently, a third call to send() waits forever. *)
Theorem C80_asynchronous_iterables_refuted :
  exists st, execution no_ext ex_config []
    [LOpen; LC Go; LK Go; LCall (CallSend SAsync); LCall (CallSend SAsync); LUser 0 Go; LUser 1 Go;
     LUser 0 (Next (Item (PStr (s "a")))); LCall (CallSend (SData (PStr (s "c")))); LUser 2 Go;
     LUser 1 (Next (Item (PStr (s "b"))));
     LUser 0 DrainOk; LUser 0 (Next Stop); LUser 0 DrainOk; LUser 1 DrainOk; LUser 1 (Next Stop); LUser 1 DrainOk;
     LLost None true; LT Go; LC Go; LK Go] st /\
  ordinary_loss st /\ hangs ex_config st 2.
Proof.
  match goal with |- exists st, execution _ _ _ ?ls st /\ _ /\ hangs _ st ?i =>
    destruct (ordinary_hangs_check ex_config (fun _ => true) ls i) as (st & A & B & _ & C) end; [vm_compute; reflexivity|].
  exists st. auto.
Qed.

Print Assumptions C80_no_call_hangs_partial.
Print Assumptions C80_runs_are_bounded.
Print Assumptions C80_cancelled_close_refuted.
Print Assumptions C80_long_reason_refuted.
Print Assumptions C80_os_error_refuted.
Print Assumptions C80_asynchronous_iterables_refuted.
