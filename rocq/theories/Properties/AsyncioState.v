(* Properties of the asyncio API that depend on the whole history of a connection: queue, close
   frames, states, pings, close code (C58, C61-C65). *)
From Verif Require Import Base.Prelude Base.PreludeFacts Model.Streams Model.Frames
  Model.LegacyFraming Model.LegacyProtocol Spec.Rfc6455 Spec.Utf8Spec Spec.Asyncio
  Proofs.LegacyPrims Proofs.LegacyFields Proofs.LegacyShapes Proofs.LegacyUsers Proofs.LegacyClose
  Properties.FrameCodec.
Local Open Scope N_scope.

(* An execution: connection establishment, user calls, incoming data, loss of the connection, time
   and tasks, in any order *)
Definition execution {E} (X : ext_ops E) (cfg : config) (exts : list E) (ls : list label) (st : conn E)
  : Prop := exec X cfg (initial exts) ls = Some st.

Definition bs (l : list N) : bytes := map n2b l.
Definition ex_config : config := {|
  c_client := true; c_max_size := Some 100%Z; c_max_queue := Some 1; c_close_timeout := Some 10;
  c_ping_interval := Some 20; c_ping_timeout := Some 20; c_legacy_recv := false;
  c_can_write_eof := true; c_key := fun n => bs [1; 2; 3; 4] |}.

(* To show that an execution exists and ends in a state where P holds *)
Lemma by_executing cfg ls (P : conn Empty_set -> bool) :
  match exec no_ext cfg (initial []) ls with Some st => P st | None => false end = true ->
  exists st, execution no_ext cfg [] ls st /\ P st = true.
Proof.
  unfold execution. destruct (exec no_ext cfg (initial []) ls) as [st|]; [|discriminate].
  intros H. exists st. now split.
Qed.

(* ---- C58 ---- *)

Theorem C58_queue_bounded :
  forall E (X : ext_ops E) cfg exts ls st n,
    c_max_queue cfg = Some n -> execution X cfg exts ls st ->
    lenN (p_messages st) <= n.
Proof.
  intros E X cfg exts ls st n Hn H.
  refine (exec_invariant X cfg True (Queue n) _ _ _ _ _ Logic.I _ H).
  - intros st1 st2. now apply Queue_prim.
  - intros st1 f. unfold Queue. pose proof (record_frame_fields st1 f) as (_ & _ & -> & _). auto.
  - unfold Queue. cbn. lia.
Qed.
(* two messages are received: one fills the queue, the other waits *)
Example C58_applies :
  exists st, execution no_ext ex_config []
    [LOpen; LData (bs [130; 1; 97]); LData (bs [130; 1; 98]); LT Go; LT Go] st /\
  (lenN (p_messages st) =? 1) && match p_T st with TPut (MBinary x) _ => bytes_eqb x (b "b") | _ => false end = true.
Proof. apply by_executing. vm_compute. reflexivity. Qed.

(* ---- C61 ---- *)

Theorem C61_one_close_frame :
  forall E (X : ext_ops E) cfg exts ls st before x after,
    execution X cfg exts ls st ->
    p_out st = before ++ x :: after -> f_opcode (o_frame x) = CLOSE ->
    after = [] /\ Forall (fun y => f_opcode (o_frame y) <> CLOSE) before.
Proof.
  intros E X cfg exts ls st before x after H Ho Hx.
  destruct (Base_exec X cfg _ _ _ H) as (_ & _ & O & _).
  assert (N : ~ no_close (p_out st)).
  { unfold no_close. rewrite Ho, Forall_app. intros [_ Q]. inversion Q; subst. contradiction. }
  assert (S : exists l y, p_out st = l ++ [y] /\ no_close l).
  { unfold Out in O. destruct (p_state st); [rewrite O in N; destruct N; constructor|contradiction| |];
      (destruct O as [O|(l & y & O1 & O2 & _)]; [contradiction|now exists l, y]). }
  destruct S as (l & y & S1 & S2). rewrite Ho in S1.
  destruct (exists_last (l := x :: after)) as (m & z & Em); [discriminate|].
  rewrite Em, app_assoc in S1. apply app_inj_tail in S1 as [S1 _]. subst l.
  unfold no_close in S2. apply Forall_app in S2 as [S2 S3].
  destruct after as [|a after]; [split; [reflexivity|exact S2]|].
  destruct m as [|m0 m]; [now apply (f_equal (@length sent)) in Em; cbn in Em|].
  injection Em as E1 _. subst m0. inversion S3; subst. contradiction.
Qed.
(* close() is called while the peer's close frame is on its way, and the connection is failed *)
Example C61_applies :
  exists st, execution no_ext ex_config []
    [LOpen; LCall (CallSend (SData (PBytes (b "a")))); LUser 0 Go; LCall (CallClose 1000 []);
     LData (bs [136; 2; 3; 233]); LUser 1 Go; LT Go; LFail 1011] st /\
  match p_out st with
  | [x; y] => opcode_eqb (f_opcode (o_frame x)) BINARY && opcode_eqb (f_opcode (o_frame y)) CLOSE
  | _ => false
  end = true.
Proof. apply by_executing. vm_compute. reflexivity. Qed.

(* ---- C62 ---- *)

Theorem C62_states_in_order :
  forall E (X : ext_ops E) cfg exts ls1 ls2 st1 st2,
    execution X cfg exts ls1 st1 -> execution X cfg exts (ls1 ++ ls2) st2 ->
    (rank (p_state st1) <= rank (p_state st2))%nat.
Proof.
  intros E X cfg exts ls1 ls2 st1 st2 H1 H2. unfold execution in *. rewrite exec_app, H1 in H2.
  refine (exec_invariant X cfg True (fun st => (rank (p_state st1) <= rank (p_state st))%nat) _ _ _ _ _ Logic.I _ H2).
  - intros a c. apply rank_prim.
  - intros a f. pose proof (record_frame_fields a f) as (-> & _). auto.
  - lia.
Qed.
Theorem C62_closed_when_lost :
  forall E (X : ext_ops E) cfg exts ls st,
    execution X cfg exts ls st ->
    (p_state st = Closed <-> exists o closing, In (LLost o closing) ls).
Proof.
  intros E X cfg exts ls st H.
  destruct (Base_exec X cfg _ _ _ H) as (_ & L & _). unfold Lost in L. rewrite <- L. clear L.
  assert (G : forall ls st0, exec X cfg st0 ls = Some st -> Pings st0 ->
    (p_lost st <> None <-> p_lost st0 <> None \/ exists o closing, In (LLost o closing) ls)).
  { clear. intros ls. induction ls as [|l ls IH]; cbn [exec]; intros st0 H P.
    - apply some_inj in H as <-. split; [tauto|]. intros [?|(o & c & [])]; assumption.
    - destruct (step X cfg st0 l) as [st1|] eqn:S; [|discriminate].
      rewrite (IH st1 H (Pings_step X cfg _ _ _ P S)).
      destruct (p_lost_step X cfg _ _ _ S) as [(E0 & Nl)|(o & c & -> & HC)].
      + rewrite E0. split; intros [?|(o & c & ?)]; [tauto|right; exists o, c; now right|tauto|].
        right. exists o, c. destruct H0; [subst l; now contradiction (Nl o c)|assumption].
      + assert (p_lost st1 <> None).
        { cbn [step] in S.
          assert (S' : connection_lost st0 o c = st1) by (destruct (p_state st0); congruence).
          destruct (connection_lost_spec st0 o c P HC) as (? & ? & ? & _ & _ & A & _).
          rewrite <- S', A. discriminate. }
        split; [intros _; right; exists o, c; now left|tauto]. }
  rewrite (G _ _ H (Pings_initial _)). cbn [p_lost initial]. tauto.
Qed.
Example C62_applies :
  exists st, execution no_ext ex_config []
    [LOpen; LCall (CallClose 1000 []); LUser 0 Go; LData (bs [136; 2; 3; 232]); LT Go; LLost None true] st /\
  match p_state st with Closed => true | _ => false end = true.
Proof. apply by_executing. vm_compute. reflexivity. Qed.

(* ---- C63 ---- *)

(* p_pings: the pings waiting for a pong, oldest first, as their payload and their future *)
Theorem C63_pending_pings :
  forall E (X : ext_ops E) cfg exts ls st,
    execution X cfg exts ls st ->
    NoDup (map fst (p_pings st)) /\ chronological (map snd (p_pings st)) /\
    (p_state st <> Closed -> forall w, pending (p_pongs st) w <-> In w (map snd (p_pings st))).
Proof.
  intros E X cfg exts ls st H. destruct (Base_exec X cfg _ _ _ H) as ((P1 & P2 & _ & P4 & _) & _).
  auto.
Qed.

(* the step in which frame f is read *)
Definition receives {E} (X : ext_ops E) cfg (st : conn E) (f : frame) (st' : conn E) : Prop :=
  step X cfg st (LT Go) = Some st' /\ p_in st' = p_in st ++ [f].

Theorem C63_matching_pong :
  forall E (X : ext_ops E) cfg exts ls st f st' before w after,
    execution X cfg exts ls st -> receives X cfg st f st' -> f_opcode f = PONG ->
    p_pings st = before ++ (f_data f, w) :: after ->
    p_pings st' = after /\
    forall w', nth_error (p_pongs st') w' =
      match nth_error (p_pongs st) w' with
      | Some FPending =>
          if existsb (Nat.eqb w') (map snd before ++ [w]) then Some FResult else Some FPending
      | r => r
      end.
Proof.
  intros E X cfg exts ls st f st' before w after H [S I] Hf Hp.
  destruct (Base_exec X cfg _ _ _ H) as ((P1 & _) & _).
  destruct (pong_step X cfg st _ f st' S I Hf) as (A1 & A2).
  assert (N : ~ In (f_data f) (map fst before)).
  { rewrite Hp, map_app in P1. cbn [map fst] in P1. apply NoDup_remove_2 in P1.
    intros Q. apply P1, in_or_app. now left. }
  assert (Hh : has_ping st (f_data f) = true).
  { apply has_ping_In. rewrite Hp, map_app. apply in_or_app. right. now left. }
  unfold receive_pong in A1, A2. rewrite Hh, Hp in A1, A2.
  destruct (acknowledge_spec (f_data f) before w after (p_pongs st) N) as (futs & Q & _ & Q2).
  rewrite Q in A1, A2. rewrite A1, A2. split; [reflexivity|exact Q2].
Qed.
Theorem C63_unknown_pong :
  forall E (X : ext_ops E) cfg exts ls st f st',
    execution X cfg exts ls st -> receives X cfg st f st' -> f_opcode f = PONG ->
    ~ In (f_data f) (map fst (p_pings st)) ->
    p_pings st' = p_pings st /\ p_pongs st' = p_pongs st /\ p_state st' = p_state st /\
    p_out st' = p_out st /\ p_messages st' = p_messages st /\ p_T st' = p_T st /\
    p_users st' = p_users st.
Proof.
  intros E X cfg exts ls st f st' H [S I] Hf Hp.
  destruct (pong_step_state X cfg st _ f st' S I Hf) as (r & x & c & HT & ->).
  apply has_ping_not in Hp. unfold receive_pong.
  change (has_ping (set_in _ _) (f_data f)) with (has_ping st (f_data f)). rewrite Hp.
  cbn. rewrite HT. auto 10.
Qed.
(* a ping completes successfully only when a pong is received *)
Theorem C63_only_pongs_complete_pings :
  forall E (X : ext_ops E) cfg exts ls st l st' w,
    execution X cfg exts ls st -> step X cfg st l = Some st' ->
    succeeded (p_pongs st') w -> ~ succeeded (p_pongs st) w ->
    exists f, receives X cfg st f st' /\ f_opcode f = PONG /\
      exists before w0 after, p_pings st = before ++ (f_data f, w0) :: after /\
        In w (map snd before ++ [w0]).
Proof.
  intros E X cfg exts ls st l st' w H S Hs Hn.
  destruct (Base_exec X cfg _ _ _ H) as ((P1 & P2 & P3 & P4 & P5) & _).
  destruct (success_step X cfg st l st' w S Hs) as [?|(f & Hl & Hi & Hf)]; [contradiction|].
  subst l. exists f. split; [split; assumption|]. split; [exact Hf|].
  destruct (pong_step X cfg st _ f st' S Hi Hf) as (A1 & A2).
  destruct (has_ping st (f_data f)) eqn:Hp.
  - destruct (has_ping_split st _ Hp) as (before & w0 & after & Q & N).
    exists before, w0, after. split; [exact Q|].
    unfold receive_pong in A2. rewrite Hp, Q in A2.
    destruct (acknowledge_spec (f_data f) before w0 after (p_pongs st) N) as (futs & Q1 & _ & Q2).
    rewrite Q1 in A2. unfold succeeded in *. cbn in A2. rewrite A2, Q2 in Hs.
    destruct (nth_error (p_pongs st) w) as [[]|]; try congruence.
    destruct (existsb _ _) eqn:Ex; [|discriminate]. now apply existsb_eqb_In in Ex.
  - unfold receive_pong in A2. rewrite Hp in A2. unfold succeeded in *. congruence.
Qed.
(* Three pings, then the pong for the second one *)
Definition ex_pings : list label :=
  [LOpen; LCall (CallPing (Some (PBytes (b "a")))); LCall (CallPing (Some (PBytes (b "b"))));
   LCall (CallPing (Some (PBytes (b "c")))); LUser 0 (GoRand []); LUser 1 (GoRand []);
   LUser 2 (GoRand []); LUser 0 DrainOk; LUser 1 DrainOk; LUser 2 DrainOk].
Example C63_applies :
  exists st, execution no_ext ex_config [] (ex_pings ++ [LData (bs [138; 1; 98]); LT Go]) st /\
  match p_pings st, p_pongs st with
  | [(x, 2%nat)], [FResult; FResult; FPending] => bytes_eqb x (b "c")
  | _, _ => false
  end = true.
Proof. apply by_executing. vm_compute. reflexivity. Qed.

(* ---- C64 ---- *)

Theorem C64_pings_fail_when_lost :
  forall E (X : ext_ops E) cfg exts ls st o closing st',
    execution X cfg exts ls st -> step X cfg st (LLost o closing) = Some st' ->
    (forall w, pending (p_pongs st) w ->
       exists e code reason, failed (p_pongs st') w e /\ connection_closed e code reason) /\
    (forall w, ~ pending (p_pongs st) w -> nth_error (p_pongs st') w = nth_error (p_pongs st) w).
Proof.
  intros E X cfg exts ls st o closing st' H S.
  destruct (Base_exec X cfg _ _ _ H) as (P & _). cbn [step] in S.
  assert (HC : p_state st <> Closed) by (destruct (p_state st); discriminate).
  assert (S' : connection_lost st o closing = st') by (destruct (p_state st); congruence).
  destruct (connection_lost_spec st o closing P HC) as (futs & code & reason & A1 & _ & _ & A4 & _ & A6).
  subst st'. rewrite A4. split; intros w Hw.
  - exists (connection_closed_exc (connection_lost st o closing)), code, reason.
    split; [unfold failed; rewrite A6; unfold pending in Hw; now rewrite Hw|].
    now apply connection_closed_exc_spec.
  - rewrite A6. unfold pending in Hw. destruct (nth_error (p_pongs st) w) as [[]|]; congruence.
Qed.
Theorem C64_no_ping_pending_when_closed :
  forall E (X : ext_ops E) cfg exts ls st,
    execution X cfg exts ls st -> p_state st = Closed -> forall w, ~ pending (p_pongs st) w.
Proof.
  intros E X cfg exts ls st H HC. destruct (Base_exec X cfg _ _ _ H) as ((_ & _ & _ & _ & P5) & _).
  now apply P5.
Qed.
Example C64_applies :
  exists st, execution no_ext ex_config []
    (ex_pings ++ [LData (bs [138; 1; 97]); LT Go; LData (bs [136; 2; 3; 233]); LT Go; LLost None true]) st /\
  match p_pongs st with
  | [FResult; FExn (ConnectionClosedOK 1001 _); FExn (ConnectionClosedOK 1001 _)] => true
  | _ => false
  end = true.
Proof. apply by_executing. vm_compute. reflexivity. Qed.

(* ---- C65 ---- *)

(* p_in: the frames read so far.  p_close: the values of close_code and close_reason once the
   connection is closed. *)
Lemma close_frame_parses f code reason :
  close_frame f code reason <-> parses_close f (code, reason).
Proof. unfold close_frame, parses_close. now rewrite C06_close_parse_exact. Qed.
Theorem C65_close_code :
  forall E (X : ext_ops E) cfg exts ls st,
    execution X cfg exts ls st -> p_state st = Closed ->
    exists code reason, p_close st = Some (code, reason) /\
      ((exists l f, p_in st = l ++ [f] /\ close_frame f code reason /\
                    forall f', In f' l -> forall c r, ~ close_frame f' c r) \/
       (code = 1006%Z /\ reason = [] /\
        forall f', In f' (p_in st) -> forall c r, ~ close_frame f' c r)).
Proof.
  intros E X cfg exts ls st H HC.
  destruct (Code_exec X cfg _ _ _ H) as ((_ & L & _) & _ & C).
  apply L in HC. destruct C as [(l & f & [code reason] & C1 & C2 & C3 & C4)|[C1 C2]].
  - exists code, reason. split; [exact C4|]. left. exists l, f. split; [exact C1|].
    split; [now apply close_frame_parses|]. intros f' Hf' c r Q. apply close_frame_parses in Q.
    rewrite Forall_forall in C2. exact (C2 f' Hf' _ Q).
  - exists 1006%Z, []. split; [destruct (p_lost st); [exact C2|contradiction]|]. right.
    split; [reflexivity|]. split; [reflexivity|]. intros f' Hf' c r Q. apply close_frame_parses in Q.
    rewrite Forall_forall in C1. exact (C1 f' Hf' _ Q).
Qed.
(* Once the connection is closed, sending and pinging raise the exception for this code *)
Theorem C65_exception :
  forall E (X : ext_ops E) cfg exts ls st i c a st' code reason,
    execution X cfg exts ls st -> p_state st = Closed -> p_close st = Some (code, reason) ->
    nth_error (p_users st) i = Some (UStart c, false) ->
    (exists m, c = CallSend m) \/ (exists d, c = CallPing d) \/ (exists d, c = CallPong d) ->
    step X cfg st (LUser i a) = Some st' ->
    exists e, nth_error (p_users st') i = Some (UDone (RRaise e), false) /\
      connection_closed e code reason.
Proof.
  intros E X cfg exts ls st i c a st' code reason H HC Hc Hi Hcall S.
  exists (connection_closed_exc st). split; [|now apply connection_closed_exc_spec].
  cbn [step] in S. unfold step_user in S. rewrite Hi in S. cbn [step_call] in S.
  assert (Eo : ensure_open st = ERaise (connection_closed_exc st)) by (unfold ensure_open; now rewrite HC).
  assert (G : st' = raise_ i (connection_closed_exc st) st).
  { unfold start_call in S.
    destruct Hcall as [[m ->]|[[d ->]|[d ->]]]; destruct a; try discriminate; rewrite Eo in S;
      now apply some_inj in S as <-. }
  subst st'. unfold raise_, return_, set_user. cbn [p_users set_users].
  apply nth_error_replace_eq. apply nth_error_Some. congruence.
Qed.
(* recv() too, when no message is left *)
Theorem C65_exception_recv :
  forall E (X : ext_ops E) cfg exts ls st i w st' code reason,
    execution X cfg exts ls st -> p_state st = Closed -> p_close st = Some (code, reason) ->
    c_legacy_recv cfg = false ->
    nth_error (p_users st) i = Some (URecvWait w, false) -> fut_done (get_fut (p_pops st) w) = false ->
    step X cfg st (LUser i Go) = Some st' ->
    exists e, nth_error (p_users st') i = Some (UDone (RRaise e), false) /\
      connection_closed e code reason.
Proof.
  intros E X cfg exts ls st i w st' code reason H HC Hc Hl Hi Hw S.
  exists (connection_closed_exc st). split; [|now apply connection_closed_exc_spec].
  cbn [step] in S. unfold step_user in S. rewrite Hi in S. cbn [step_call] in S.
  destruct (_ || _); [|discriminate]. apply some_inj in S as <-.
  unfold recv_resume. change (p_pops (set_pop None st)) with (p_pops st). rewrite Hw, Hl.
  assert (Eo : ensure_open (set_pop None st) = ERaise (connection_closed_exc st))
    by (unfold ensure_open; cbn [p_state set_pop]; now rewrite HC).
  rewrite Eo. unfold raise_, return_, set_user. cbn [p_users set_users set_pop].
  apply nth_error_replace_eq. apply nth_error_Some. congruence.
Qed.
Example C65_applies :
  exists st, execution no_ext ex_config []
    [LOpen; LCall CallRecv; LUser 0 Go; LData (bs [136; 2; 3; 233]); LT Go; LLost None true; LT DrainOk;
     LUser 0 Go; LCall (CallSend (SData (PBytes (b "a")))); LUser 1 Go] st /\
  match p_close st, map fst (p_users st) with
  | Some (1001%Z, []), [UDone (RRaise (ConnectionClosedOK 1001 _)); UDone (RRaise (ConnectionClosedOK 1001 _))] => true
  | _, _ => false
  end = true.
Proof. apply by_executing. vm_compute. reflexivity. Qed.
Example C65_applies_1006 :
  exists st, execution no_ext ex_config []
    [LOpen; LData (bs [136; 2; 3; 237]); LT Go; LLost None true] st /\
  match p_close st, p_in st with Some (1006%Z, []), [_] => true | _, _ => false end = true.
Proof. apply by_executing. vm_compute. reflexivity. Qed.

(* The close code isn't final when the connection is lost: it changes if a close frame received
   earlier hasn't been read yet. *)
Theorem C65_stable_refuted :
  ~ (forall E (X : ext_ops E) cfg exts ls1 ls2 st1 st2,
       execution X cfg exts ls1 st1 -> p_state st1 = Closed -> execution X cfg exts (ls1 ++ ls2) st2 ->
       p_close st2 = p_close st1).
Proof.
  intros H.
  destruct (by_executing ex_config [LOpen; LData (bs [136; 2; 3; 232]); LLost None true]
    (fun st => match p_close st, p_state st with Some (1006%Z, []), Closed => true | _, _ => false end))
    as (st1 & H1 & Q1); [vm_compute; reflexivity|].
  destruct (by_executing ex_config ([LOpen; LData (bs [136; 2; 3; 232]); LLost None true] ++ [LT Go])
    (fun st => match p_close st with Some (1000%Z, []) => true | _ => false end))
    as (st2 & H2 & Q2); [vm_compute; reflexivity|].
  assert (HC : p_state st1 = Closed).
  { destruct (p_close st1) as [[[] []]|]; try discriminate; destruct (p_state st1);
      try reflexivity; repeat (destruct p; try discriminate). }
  specialize (H _ _ _ _ _ _ _ _ H1 HC H2).
  rewrite H in Q2. destruct (p_close st1) as [[c r]|]; [|discriminate].
  destruct c; try discriminate. destruct r; repeat (destruct p; try discriminate).
Qed.

Print Assumptions C58_queue_bounded.
Print Assumptions C61_one_close_frame.
Print Assumptions C62_states_in_order.
Print Assumptions C62_closed_when_lost.
Print Assumptions C63_pending_pings.
Print Assumptions C63_matching_pong.
Print Assumptions C63_unknown_pong.
Print Assumptions C63_only_pongs_complete_pings.
Print Assumptions C64_pings_fail_when_lost.
Print Assumptions C64_no_ping_pending_when_closed.
Print Assumptions C65_close_code.
Print Assumptions C65_exception.
Print Assumptions C65_exception_recv.
Print Assumptions C65_stable_refuted.
