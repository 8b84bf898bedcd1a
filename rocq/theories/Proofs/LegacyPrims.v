(* Every step of Model/LegacyProtocol.v is a sequence of assignments of a few kinds.  An invariant
   preserved by all of them holds in all executions. *)
From Verif Require Import Base.Prelude Base.PreludeFacts Base.Utf8 Model.Streams Model.Frames Model.LegacyFraming
  Model.LegacyProtocol.
Local Open Scope N_scope.

Section Prims.
Context {E : Type} (X : ext_ops E) (cfg : config).
(* whether the connection may open *)
Context (may_open : Prop).
Implicit Type st : conn E.

Inductive prim : conn E -> conn E -> Prop :=
| P_users v st : prim st (set_users v st)
| P_T v st : prim st (set_T v st)
| P_Tcancel v st : prim st (set_Tcancel v st)
| P_K v st : prim st (set_K v st)
| P_Kcancel v st : prim st (set_Kcancel v st)
| P_C v st : prim st (set_C v st)
| P_pop v st : prim st (set_pop v st)
| P_put v st : prim st (set_put v st)
| P_frag v st : prim st (set_frag v st)
| P_pops v st : prim st (set_pops v st)
| P_puts v st : prim st (set_puts v st)
| P_frags v st : prim st (set_frags v st)
| P_exts v st : prim st (set_exts v st)
| P_closing st : prim st (set_closing true st)
| P_eof v st : prim st (set_eof_written v st)
| P_aborted v st : prim st (set_aborted v st)
| P_reader v st : prim st (set_reader v st)
| P_delivered v st : prim st (set_delivered v st)
| P_now d st : prim st (set_now (p_now st + d) st)
| P_push m st : room cfg st = true -> prim st (set_messages (p_messages st ++ [m]) st)
| P_popleft m rest st : p_messages st = m :: rest -> prim st (set_messages rest st)
| P_write x st : p_state st = Open -> f_opcode (o_frame x) <> CLOSE ->
    prim st (set_out (p_out st ++ [x]) st)
| P_write_close x st : p_state st = Open -> f_opcode (o_frame x) = CLOSE ->
    prim st (set_out (p_out st ++ [x]) (set_state Closing st))
| P_Closing st : p_state st = Open -> prim st (set_state Closing st)
| P_open st : p_state st = Connecting -> may_open -> prim st (set_state Open st)
| P_ping data st : has_ping st data = false -> p_state st = Open ->
    prim st (set_pings (p_pings st ++ [(data, length (p_pongs st))])
               (set_pongs (p_pongs st ++ [FPending]) st))
| P_lost o c st : p_state st <> Closed -> prim st (connection_lost st o c).

Inductive reach st : conn E -> Prop :=
| reach_refl : reach st st
| reach_step st1 st2 : reach st st1 -> prim st1 st2 -> reach st st2.

Lemma reach_trans st st1 st2 : reach st st1 -> reach st1 st2 -> reach st st2.
Proof. intros H. induction 1; [assumption|]. eapply reach_step; eassumption. Qed.

Ltac prim_step :=
  lazymatch goal with
  | |- reach ?st ?st => apply reach_refl
  | H : reach ?a ?b |- reach ?a ?b => exact H
  | |- reach _ (set_users _ _) => eapply reach_step; [|apply P_users]
  | |- reach _ (set_T _ _) => eapply reach_step; [|apply P_T]
  | |- reach _ (set_Tcancel _ _) => eapply reach_step; [|apply P_Tcancel]
  | |- reach _ (set_K _ _) => eapply reach_step; [|apply P_K]
  | |- reach _ (set_Kcancel _ _) => eapply reach_step; [|apply P_Kcancel]
  | |- reach _ (set_C _ _) => eapply reach_step; [|apply P_C]
  | |- reach _ (set_pop _ _) => eapply reach_step; [|apply P_pop]
  | |- reach _ (set_put _ _) => eapply reach_step; [|apply P_put]
  | |- reach _ (set_frag _ _) => eapply reach_step; [|apply P_frag]
  | |- reach _ (set_pops _ _) => eapply reach_step; [|apply P_pops]
  | |- reach _ (set_puts _ _) => eapply reach_step; [|apply P_puts]
  | |- reach _ (set_frags _ _) => eapply reach_step; [|apply P_frags]
  | |- reach _ (set_exts _ _) => eapply reach_step; [|apply P_exts]
  | |- reach _ (set_closing _ _) => eapply reach_step; [|apply P_closing]
  | |- reach _ (set_eof_written _ _) => eapply reach_step; [|apply P_eof]
  | |- reach _ (set_aborted _ _) => eapply reach_step; [|apply P_aborted]
  | |- reach _ (set_reader _ _) => eapply reach_step; [|apply P_reader]
  | |- reach _ (set_delivered _ _) => eapply reach_step; [|apply P_delivered]
  | |- reach _ (set_now _ _) => eapply reach_step; [|apply P_now]
  | |- reach _ (set_user _ _ _) => unfold set_user
  | |- reach _ (return_ _ _ _) => unfold return_
  | |- reach _ (raise_ _ _ _) => unfold raise_
  end.
Ltac prims := repeat prim_step.
Ltac destr :=
  match goal with
  | |- context [match ?x with _ => _ end] => destruct x eqn:?
  | |- context [if ?x then _ else _] => destruct x eqn:?
  end.

Ltac destrH :=
  match goal with
  | H : match ?x with _ => _ end = Some _ |- _ => destruct x eqn:?
  end.

Lemma reach_write st0 st by_ f st' e :
  write X cfg st by_ f = (st', e) -> p_state st = Open -> f_opcode f <> CLOSE ->
  reach st0 st -> reach st0 st'.
Proof.
  unfold write. destruct (serialize _ _ _ _ _) as [exts r]. intros H Ho Hf R.
  destruct r; apply pair_equal_spec in H as [<- <-].
  - eapply reach_step; [|apply P_write; assumption]. now prims.
  - now prims.
Qed.

(* writing a close frame while assigning the state *)
Lemma reach_write_close st0 st by_ f st' e :
  write X cfg (set_state Closing st) by_ f = (st', e) -> p_state st = Open ->
  f_opcode f = CLOSE -> reach st0 st -> reach st0 st'.
Proof.
  unfold write. destruct (serialize _ _ _ _ _) as [exts r]. intros H Ho Hf R.
  destruct r; apply pair_equal_spec in H as [<- <-].
  - eapply reach_step with (st1 := set_exts exts st); [now prims|].
    change (prim (set_exts exts st)
              (set_out (p_out (set_exts exts st) ++ [Sent by_ f a])
                 (set_state Closing (set_exts exts st)))).
    now apply P_write_close.
  - prims. eapply reach_step; [|now apply P_Closing]. assumption.
Qed.

Lemma reach_cancel_T st0 st : reach st0 st -> reach st0 (cancel_T st).
Proof. intros. unfold cancel_T. destr; prims. Qed.

Lemma reach_fail st0 st code st' e :
  fail_connection X cfg st code = (st', e) -> reach st0 st -> reach st0 st'.
Proof.
  unfold fail_connection. intros H R. apply reach_cancel_T in R.
  set (st1 := cancel_T st) in *. clearbody st1.
  destruct (negb (code =? 1006)%Z && is_open (p_state st1)) eqn:G.
  - apply andb_true_iff in G as [_ G].
    assert (Ho : p_state st1 = Open) by (now destruct (p_state st1)).
    destruct (serialize_close code []) as [data|e0].
    + destruct (write _ _ _ _ _) as [st2 e2] eqn:W.
      eapply reach_write_close in W; [|assumption|reflexivity|exact R].
      destruct e2; apply pair_equal_spec in H as [<- _]; [assumption|]. destruct (p_C st2); now prims.
    + apply pair_equal_spec in H as [<- _]. assumption.
  - apply pair_equal_spec in H as [<- _]. destruct (p_C st1); now prims.
Qed.

Lemma reach_write_frame st0 st by_ fin op data st' e :
  write_frame X cfg st by_ fin op data Open = (st', e) -> op <> CLOSE ->
  reach st0 st -> reach st0 st'.
Proof.
  unfold write_frame. destruct (p_state st) eqn:Ho; cbn [pstate_eqb negb]; intros H Hop R;
    try (apply pair_equal_spec in H as [<- _]; assumption).
  eapply reach_write; eauto.
Qed.

Lemma reach_write_close_frame st0 st by_ data st' r :
  write_close_frame X cfg st by_ data = (st', r) -> reach st0 st -> reach st0 st'.
Proof.
  unfold write_close_frame, write_frame. intros H R.
  destruct (p_state st) eqn:Ho; cbn [is_open] in H;
    try (apply pair_equal_spec in H as [<- _]; assumption).
  change (p_state (set_state Closing st)) with Closing in H. cbn [pstate_eqb negb] in H.
  destruct (write _ _ _ _ _) as [st2 e] eqn:W.
  apply pair_equal_spec in H as [<- _].
  eapply reach_write_close; eauto.
Qed.

Lemma reach_after_drain st0 st a st' r :
  after_drain X cfg st a = Some (st', r) -> reach st0 st -> reach st0 st'.
Proof.
  unfold after_drain. intros H R.
  destruct a; try discriminate; [now apply some_inj, pair_equal_spec in H as [<- _]|].
  destruct (fail_connection X cfg st 1006) as [st2 e] eqn:F.
  destruct (p_lost st) as [[[]|]|]; destruct o; try discriminate;
    apply some_inj, pair_equal_spec in H as [<- _]; try assumption; eapply reach_fail; eauto.
Qed.

Lemma reach_T_raise st0 st e : reach st0 st -> reach st0 (T_raise X cfg st e).
Proof.
  intros R. unfold T_raise.
  destruct (fail_connection X cfg st (fail_code e)) as [st2 e2] eqn:F.
  eapply reach_fail in F; [|exact R]. destruct e; now prims.
Qed.

Lemma reach_put_message st0 st m : reach st0 st -> reach st0 (put_message X cfg st m).
Proof.
  intros R. unfold put_message. destruct (room cfg st) eqn:Hr; [|now prims].
  assert (R' : reach st0 (set_messages (p_messages st ++ [m]) st)).
  { eapply reach_step; [exact R|]. now apply P_push. }
  set (st1 := set_messages _ st) in *. clearbody st1.
  destruct (p_pop st1) as [w|]; [|now prims].
  destruct (set_result w (p_pops st1)); [now prims|]. now apply reach_T_raise.
Qed.

Lemma reach_after_close st0 st c : reach st0 st -> reach st0 (after_close X cfg st c).
Proof. intros R. unfold after_close. destruct c; [now prims| |]; now apply reach_T_raise. Qed.

(* What reading a frame assigns, whatever the state of the connection *)
Definition record_frame st (f : frame) : conn E :=
  let st := set_in (p_in st ++ [f]) st in
  match f_opcode f with
  | CLOSE => match parse_close (f_data f) with Ok c => set_close (Some c) st | Raise _ => st end
  | PONG => receive_pong st (f_data f)
  | _ => st
  end.

Lemma reach_on_frame st c f :
  reach (record_frame st f) (on_frame X cfg (set_in (p_in st ++ [f]) st) c f).
Proof.
  unfold record_frame. cbv zeta. set (st1 := set_in _ st). clearbody st1.
  unfold on_frame. destruct (f_opcode f) eqn:Op; cbv iota.
  1-3: (destruct (read_message cfg c f); [apply reach_put_message|prims|apply reach_T_raise];
        apply reach_refl).
  - destruct (parse_close (f_data f)) as [cl|e] eqn:Pc; [|apply reach_T_raise, reach_refl].
    destruct (write_close_frame _ _ _ _ _) as [st2 r] eqn:W.
    eapply reach_write_close_frame in W; [|apply reach_refl].
    destruct r as [[e|]|]; [now apply reach_T_raise|now prims|now apply reach_after_close].
  - assert (R' := reach_refl st1).
    destruct (ensure_open st1); [|now apply reach_T_raise|now prims].
    destruct (write_frame _ _ _ _ _ _ _ _) as [st2 [e|]] eqn:W;
      (eapply reach_write_frame in W; [|discriminate|exact R']); [now apply reach_T_raise|now prims].
  - prims.
Qed.

(* Step l reads frame f, in context c *)
Definition reads st (l : label) (c : rctx) (f : frame) (st' : conn E) : Prop :=
  l = LT Go /\ p_T st = TRead c /\ p_Tcancel st = false /\
  (forall o, p_lost st <> Some (Some o)) /\
  exists r exts,
    run (legacy_read X (negb (c_client cfg)) (read_limit cfg c)) (p_reader st) (p_exts st)
      = ODone f r exts /\
    let st1 := set_reader r (set_exts exts st) in
    st' = on_frame X cfg (set_in (p_in st1 ++ [f]) st1) c f.

Inductive reach_read st l : conn E -> Prop :=
| RR_quiet st' : reach st st' -> reach_read st l st'
| RR_frame c f st1 st' : reads st l c f st' -> reach st st1 ->
    p_in st1 = p_in st -> p_pings st1 = p_pings st -> p_pongs st1 = p_pongs st ->
    reach (record_frame st1 f) st' -> reach_read st l st'.

Lemma reach_read_frame st c st' :
  p_T st = TRead c -> p_Tcancel st = false ->
  read_frame X cfg st c = Some st' -> reach_read st (LT Go) st'.
Proof.
  unfold read_frame. intros HT Hc H.
  assert (G : (forall o, p_lost st <> Some (Some o)) ->
        match run (legacy_read X (negb (c_client cfg)) (read_limit cfg c)) (p_reader st)
            (p_exts st) with
        | OSusp _ _ _ => None
        | ODone f r exts =>
            Some (on_frame X cfg (set_in (p_in st ++ [f]) (set_reader r (set_exts exts st))) c f)
        | OFail e r exts => Some (T_raise X cfg (set_reader r (set_exts exts st)) (PyExn e))
        end = Some st' -> reach_read st (LT Go) st').
  { intros NL. destruct (run _ _ _) eqn:Rn; intros H'; [discriminate| |]; apply some_inj in H' as <-.
    - assert (R := reach_refl st).
      eapply RR_frame with (c := c) (f := a) (st1 := set_reader r (set_exts x st)).
      + unfold reads. split; [reflexivity|]. do 3 (split; [assumption|]). exists r, x. split; [exact Rn|reflexivity].
      + now prims.
      + reflexivity.
      + reflexivity.
      + reflexivity.
      + exact (reach_on_frame (set_reader r (set_exts x st)) c a).
    - apply RR_quiet. apply reach_T_raise. prims. }
  destruct (p_lost st) as [[o|]|]; [|apply G; [intros; discriminate|exact H] ..].
  apply some_inj in H as <-. apply RR_quiet, reach_T_raise, reach_refl.
Qed.

Lemma reach_step_T st a st' : step_T X cfg st a = Some st' -> reach_read st (LT a) st'.
Proof.
  unfold step_T. intros H. assert (R := reach_refl st).
  assert (C : forall pc, Some (T_raise X cfg (match pc with TPut _ _ => set_put None st | _ => st end)
                 CancelledError) = Some st' -> reach_read st (LT a) st').
  { intros pc H'. apply some_inj in H' as <-. apply RR_quiet, reach_T_raise. destruct pc; now prims. }
  destruct (p_T st) as [|c|c|c|c|c|m w|e] eqn:Tp; try discriminate;
    (destruct (p_Tcancel st) eqn:Tc;
      [destruct a; try discriminate;
       first [exact (C TNone H) | exact (C (TPut m w) H)]|]).
  - destruct a; try discriminate. eapply reach_read_frame; eauto.
  - apply RR_quiet. destruct (after_drain X cfg st a) as [[st2 r]|] eqn:D; [|discriminate].
    eapply reach_after_drain in D; [|exact R].
    destruct r; apply some_inj in H as <-; [now prims|now apply reach_T_raise|now prims].
  - apply RR_quiet. destruct a; try discriminate. destruct (ensure_open_end st); [|discriminate].
    apply some_inj in H as <-. now apply reach_T_raise.
  - apply RR_quiet. destruct (after_drain X cfg st a) as [[st2 r]|] eqn:D; [|discriminate].
    eapply reach_after_drain in D; [|exact R].
    destruct r; apply some_inj in H as <-; [now apply reach_after_close| |now prims].
    destr; [now apply reach_after_close|now apply reach_T_raise].
  - apply RR_quiet. destruct a; try discriminate. destruct (ensure_open_end st); [|discriminate].
    apply some_inj in H as <-. destr; [now apply reach_after_close|now apply reach_T_raise].
  - apply RR_quiet. destruct a; try discriminate. destrH; [|discriminate].
    apply some_inj in H as <-. apply reach_put_message. now prims.
Qed.

Lemma reach_start_ping st0 st by_ data st' e :
  start_ping X cfg st by_ data = (st', e) -> has_ping st data = false -> p_state st = Open ->
  reach st0 st -> reach st0 st'.
Proof.
  unfold start_ping. intros H Hp Ho R.
  eapply reach_write_frame in H; [exact H|discriminate|].
  eapply reach_step; [exact R|].
  change (p_pings (set_pongs (p_pongs st ++ [FPending]) st)) with (p_pings st). now apply P_ping.
Qed.

Lemma ensure_open_EOk st : ensure_open st = EOk -> p_state st = Open.
Proof. unfold ensure_open. destruct (p_state st); try discriminate. reflexivity. Qed.
Lemma random_ok_fresh st r : random_ok st r = true -> has_ping st r = false.
Proof. unfold random_ok. intros H. apply andb_true_iff in H as [_ H]. now apply negb_true_iff. Qed.

Lemma reach_after_ping st0 st data : reach st0 st -> reach st0 (after_ping cfg st data).
Proof. intros R. unfold after_ping. destruct (find_ping st data); [|now prims]. destr; now prims. Qed.

Lemma reach_step_K st0 st a st' : step_K X cfg st a = Some st' -> reach st0 st -> reach st0 st'.
Proof.
  unfold step_K. intros H R.
  assert (C : Some (set_K KDone st) = Some st' -> reach st0 st')
    by (intros H'; apply some_inj in H' as <-; now prims).
  destruct (p_K st) eqn:Kp; try discriminate;
    (destruct (p_Kcancel st); [destruct a; try discriminate; exact (C H)|]).
  - destruct a; try discriminate. destruct (c_ping_interval cfg); apply some_inj in H as <-; now prims.
  - destruct a; try discriminate. destruct (d <=? p_now st); [|discriminate].
    destruct (ensure_open st) eqn:Eo; [|now apply C|apply some_inj in H as <-; now prims].
    destruct (random_ok st r) eqn:Ro; [|discriminate].
    destruct (start_ping X cfg st ByKeepalive r) as [st2 e] eqn:Sp.
    eapply reach_start_ping in Sp; [|now apply random_ok_fresh|now apply ensure_open_EOk|exact R].
    destruct e; apply some_inj in H as <-; now prims.
  - destruct (after_drain X cfg st a) as [[st2 r]|] eqn:D; [|discriminate].
    eapply reach_after_drain in D; [|exact R].
    destruct r; apply some_inj in H as <-; [now apply reach_after_ping|now prims|now prims].
  - destruct a; try discriminate. destruct (ensure_open_end st); [|discriminate]. now apply C.
  - destruct a; try discriminate.
    + destruct (get_fut (p_pongs st) w); [discriminate| |]; apply some_inj in H as <-; now prims.
    + destruct (d <=? p_now st); [|discriminate].
      destruct (fail_connection X cfg st 1011) as [st2 e] eqn:F. apply some_inj in H as <-. prims.
      eapply reach_fail; eauto.
Qed.

Lemma reach_close_tcp st0 st e : reach st0 st -> reach st0 (close_tcp cfg st e).
Proof. intros R. unfold close_tcp. repeat destr; now prims. Qed.
Lemma reach_half_close st0 st : reach st0 st -> reach st0 (half_close cfg st).
Proof.
  intros R. unfold half_close. destr; [destr|]; [apply reach_close_tcp; now prims|now prims|].
  now apply reach_close_tcp.
Qed.
Lemma reach_after_transfer st0 st : reach st0 st -> reach st0 (after_transfer cfg st).
Proof.
  intros R. unfold after_transfer.
  set (st1 := match p_K st with KNone => st | _ => set_Kcancel true st end).
  assert (R' : reach st0 st1) by (unfold st1; destr; now prims). clearbody st1.
  destr; [destr|]; [now apply reach_close_tcp|now prims|now apply reach_half_close].
Qed.

Lemma reach_step_C st0 st a st' : step_C cfg st a = Some st' -> reach st0 st -> reach st0 st'.
Proof.
  unfold step_C. intros H R.
  destruct (p_C st) eqn:Cp; try discriminate; destruct a; try discriminate.
  - apply some_inj in H as <-. destr; [now prims|now apply reach_after_transfer].
  - destruct (p_T st) as [| | | | | | |[e|]]; try discriminate; apply some_inj in H as <-;
      [now apply reach_close_tcp|now apply reach_after_transfer].
  - destrH; [|discriminate]. apply some_inj in H as <-. now apply reach_close_tcp.
  - destrH; [|discriminate]. apply some_inj in H as <-.
    destr; [now apply reach_close_tcp|now apply reach_half_close].
  - destrH; [|discriminate]. apply some_inj in H as <-. now apply reach_close_tcp.
  - destrH; [|discriminate]. apply some_inj in H as <-. now apply reach_close_tcp.
  - destrH; [|discriminate]. apply some_inj in H as <-. now prims.
  - destrH; [|discriminate]. destrH; apply some_inj in H as <-; now prims.
  - destrH; [|discriminate]. apply some_inj in H as <-. now prims.
  - destrH; [|discriminate]. apply some_inj in H as <-. now prims.
Qed.

Lemma reach_recv_loop st0 st i : reach st0 st -> reach st0 (recv_loop st i).
Proof.
  intros R. unfold recv_loop. destruct (p_messages st) as [|m rest] eqn:M.
  - destr; now prims.
  - assert (R' : reach st0 (set_messages rest st)).
    { eapply reach_step; [exact R|]. eapply P_popleft. exact M. }
    destr; [destr|]; now prims.
Qed.

Lemma reach_recv_resume st0 st i w : reach st0 st -> reach st0 (recv_resume cfg st i w).
Proof.
  intros R. unfold recv_resume.
  assert (R' : reach st0 (set_pop None st)) by now prims.
  set (st1 := set_pop None st) in *. clearbody st1.
  destr; [now apply reach_recv_loop|]. destr; [now prims|].
  destr; [now apply reach_recv_loop|now prims|now prims].
Qed.

Lemma reach_end_fragments st0 st i r : reach st0 st -> reach st0 (end_fragments st i r).
Proof. intros R. unfold end_fragments. destr; [|now prims]. destr; now prims. Qed.

Lemma reach_raise_fragments st0 st i e : reach st0 st -> reach st0 (raise_fragments X cfg st i e).
Proof.
  intros R. unfold raise_fragments.
  destruct (fail_connection X cfg st 1011) as [st2 e2] eqn:F. eapply reach_fail in F; [|exact R].
  destruct e; now apply reach_end_fragments.
Qed.

Lemma prepare_data_opcode d op data : prepare_data d = Ok (op, data) -> op = TEXT \/ op = BINARY.
Proof.
  destruct d; cbn [prepare_data]; [destruct (utf8_encode x); cbn [rbind]|..]; intros H;
    try discriminate; apply ok_inj, pair_equal_spec in H as [<- _]; auto.
Qed.

Lemma reach_send_item st0 st i op rest d :
  reach st0 st -> reach st0 (send_item X cfg st i op rest d).
Proof.
  intros R. unfold send_item. destruct (prepare_data d) as [[op' data]|e];
    [|now apply reach_raise_fragments].
  destr; [now apply reach_raise_fragments|].
  destruct (write_frame _ _ _ _ _ _ _ _) as [st2 e] eqn:W.
  eapply reach_write_frame in W; [|discriminate|exact R].
  destruct e; [now apply reach_raise_fragments|now prims].
Qed.
Lemma reach_send_last st0 st i : reach st0 st -> reach st0 (send_last X cfg st i).
Proof.
  intros R. unfold send_last.
  destruct (write_frame _ _ _ _ _ _ _ _) as [st2 e] eqn:W.
  eapply reach_write_frame in W; [|discriminate|exact R].
  destruct e; [now apply reach_raise_fragments|now prims].
Qed.
Lemma reach_send_next st0 st i op src : reach st0 st -> reach st0 (send_next X cfg st i op src).
Proof.
  intros R. unfold send_next. destruct src as [[|d items] [e|]|];
    [now apply reach_raise_fragments|now apply reach_send_last|now apply reach_send_item
    |now apply reach_send_item|now prims].
Qed.
Lemma reach_send_first st0 st i rest d : reach st0 st -> reach st0 (send_first X cfg st i rest d).
Proof.
  intros R. unfold send_first. destruct (prepare_data d) as [[op data]|e] eqn:P; [|now prims].
  destruct (write_frame _ _ _ _ _ _ _ _) as [st2 e] eqn:W.
  eapply reach_write_frame in W.
  2:{ destruct (prepare_data_opcode _ _ _ P) as [-> | ->]; discriminate. }
  2:{ prims. exact R. }
  destruct e; [now apply reach_raise_fragments|now prims].
Qed.
Lemma reach_send_loop st0 st i m : reach st0 st -> reach st0 (send_loop X cfg st i m).
Proof.
  intros R. unfold send_loop. destruct (p_frag st); [now prims|].
  destruct m as [d| |[|d items] [e|]| |]; try (now prims); try (now apply reach_send_first).
  destruct (prepare_data d) as [[op data]|e] eqn:P; [|now prims].
  destruct (write_frame _ _ _ _ _ _ _ _) as [st2 e] eqn:W.
  eapply reach_write_frame in W; [|destruct (prepare_data_opcode _ _ _ P) as [-> | ->]; discriminate
                                 |exact R].
  destruct e; now prims.
Qed.

Lemma reach_close_wait_T st0 st i t0 : reach st0 st -> reach st0 (close_wait_T cfg st i t0).
Proof. intros R. unfold close_wait_T. destr; now prims. Qed.
Lemma reach_close_timed_out st0 st i t0 : reach st0 st -> reach st0 (close_timed_out X cfg st i t0).
Proof.
  intros R. unfold close_timed_out.
  destruct (fail_connection X cfg st 1006) as [st2 e] eqn:F. eapply reach_fail in F; [|exact R].
  now apply reach_close_wait_T.
Qed.
Lemma reach_close_start st0 st i code reason :
  reach st0 st -> reach st0 (close_start X cfg st i code reason).
Proof.
  intros R. unfold close_start. destruct (serialize_close code reason) as [data|e]; [|now prims].
  destruct (write_close_frame X cfg st (ByCall i) data) as [st2 r] eqn:W.
  eapply reach_write_close_frame in W; [|exact R].
  assert (G : reach st0
     match r with
     | Some (Some e) => raise_ i (PyExn e) st2
     | Some None => set_user i (UCloseWrite (deadline st2 (c_close_timeout cfg)) (p_now st2)) st2
     | None => close_wait_T cfg st2 i (p_now st2)
     end) by (destruct r as [[e|]|]; [now prims|now prims|now apply reach_close_wait_T]).
  destruct (c_close_timeout cfg) as [[|q]|]; [now apply reach_close_timed_out|exact G|exact G].
Qed.

Lemma reach_start_call st0 st i c a st' :
  start_call X cfg st i c a = Some st' -> reach st0 st -> reach st0 st'.
Proof.
  unfold start_call. intros H R.
  destruct c; destruct a; try discriminate; try (apply some_inj in H as <-).
  - destr; [now prims|now apply reach_recv_loop].
  - destr; [now apply reach_send_loop|now prims|now prims].
  - now apply reach_close_start.
  - destruct (ensure_open st) eqn:Eo; [|apply some_inj in H as <-; now prims
                                       |apply some_inj in H as <-; now prims].
    destruct data as [d|].
    + destruct (prepare_ctrl d) as [data|e]; [|apply some_inj in H as <-; now prims].
      destruct (has_ping st data) eqn:Hp; [apply some_inj in H as <-; now prims|].
      destruct (start_ping _ _ _ _ _) as [st2 e] eqn:Sp.
      eapply reach_start_ping in Sp; [|exact Hp|now apply ensure_open_EOk|exact R].
      destruct e; apply some_inj in H as <-; now prims.
    + destruct (random_ok st r) eqn:Ro; [|discriminate].
      destruct (start_ping _ _ _ _ _) as [st2 e] eqn:Sp.
      eapply reach_start_ping in Sp; [|now apply random_ok_fresh|now apply ensure_open_EOk|exact R].
      destruct e; apply some_inj in H as <-; now prims.
  - destr; [|now prims|now prims]. destruct (prepare_ctrl data); [|now prims].
    destruct (write_frame _ _ _ _ _ _ _ _) as [st2 e] eqn:W.
    eapply reach_write_frame in W; [|discriminate|exact R]. destruct e; now prims.
  - now prims.
Qed.

Lemma reach_cancel_call st0 st i pc : reach st0 st -> reach st0 (cancel_call X cfg st i pc).
Proof.
  intros R. unfold cancel_call. destruct pc; try (now prims); try (now apply reach_raise_fragments).
  - destr; [now apply reach_raise_fragments|now prims].
  - prims. now apply reach_cancel_T.
Qed.

Lemma reach_step_call st0 st i pc a st' :
  step_call X cfg st i pc a = Some st' -> reach st0 st -> reach st0 st'.
Proof.
  unfold step_call. intros H R. destruct pc.
  - eapply reach_start_call; eauto.
  - destruct a; try discriminate. destrH; [|discriminate]. apply some_inj in H as <-.
    now apply reach_recv_resume.
  - destruct a; try discriminate. destrH; [|discriminate]. apply some_inj in H as <-.
    now apply reach_send_loop.
  - destruct a; try discriminate. destrH; [|discriminate]. apply some_inj in H as <-. now prims.
  - destruct (after_drain X cfg st a) as [[st2 r]|] eqn:D; [|discriminate].
    eapply reach_after_drain in D; [|exact R]. destruct r; apply some_inj in H as <-; now prims.
  - destruct (after_drain X cfg st a) as [[st2 r]|] eqn:D; [|discriminate].
    eapply reach_after_drain in D; [|exact R].
    destruct r; apply some_inj in H as <-;
      [now apply reach_send_next|now apply reach_raise_fragments|now prims].
  - destruct (after_drain X cfg st a) as [[st2 r]|] eqn:D; [|discriminate].
    eapply reach_after_drain in D; [|exact R].
    destruct r; apply some_inj in H as <-;
      [now apply reach_end_fragments|now apply reach_raise_fragments|now prims].
  - destruct a; try discriminate. destrH; [|discriminate]. apply some_inj in H as <-.
    now apply reach_raise_fragments.
  - destruct op; destruct a as [| | | | |[]]; try discriminate; apply some_inj in H as <-;
      first [now apply reach_send_item|now apply reach_send_last|now apply reach_raise_fragments
            |now apply reach_send_first|now prims].
  - destruct (after_drain X cfg st a) as [[st2 r]|] eqn:D; [|discriminate].
    eapply reach_after_drain in D; [|exact R].
    destruct r; apply some_inj in H as <-; [destr; now prims|now prims|now prims].
  - assert (G : match after_drain X cfg st a with
                | Some (st, EOk) => Some (close_wait_T cfg st i t0)
                | Some (st, ERaise e) => Some (raise_ i e st)
                | Some (st, EWait) => Some (set_user i (UCloseEnsure d t0) st)
                | None => None
                end = Some st' -> reach st0 st').
    { destruct (after_drain X cfg st a) as [[st2 r]|] eqn:D; [|discriminate].
      eapply reach_after_drain in D; [|exact R].
      destruct r; intros H'; apply some_inj in H' as <-;
        [now apply reach_close_wait_T|now prims|now prims]. }
    destruct a; try (now apply G). destrH; [|discriminate].
    apply some_inj in H as <-. now apply reach_close_timed_out.
  - destruct a; try discriminate; (destrH; [|discriminate]); apply some_inj in H as <-;
      [now prims|now apply reach_close_timed_out].
  - destruct a; try discriminate.
    + destruct (p_T st) as [| | | | | | |[e|]]; try discriminate; apply some_inj in H as <-; now prims.
    + destrH; [|discriminate]. apply some_inj in H as <-. prims. now apply reach_cancel_T.
  - destruct a; try discriminate. destrH; [|discriminate]. apply some_inj in H as <-. now prims.
  - destruct a; try discriminate.
    destruct (p_C st) as [| | | | | | |[e|]]; try discriminate; apply some_inj in H as <-; now prims.
  - destruct a; try discriminate. destrH; [|discriminate]. apply some_inj in H as <-. now prims.
  - discriminate.
Qed.

Theorem step_reach st l st' : (l = LOpen -> may_open) -> step X cfg st l = Some st' -> reach_read st l st'.
Proof.
  intros Mo.
  assert (R := reach_refl st).
  unfold step. intros H. destruct l.
  - apply RR_quiet. destruct (p_state st) eqn:Ho; try discriminate. destruct (p_C st); try discriminate.
    apply some_inj in H as <-. unfold connection_open. prims.
    eapply reach_step; [exact R|]. apply P_open; auto.
  - apply RR_quiet. apply some_inj in H as <-. destruct (fail_connection X cfg st code) as [st2 e] eqn:F.
    eapply reach_fail; eauto.
  - apply RR_quiet. destruct (r_eof _); [discriminate|]. apply some_inj in H as <-. now prims.
  - apply RR_quiet. destruct (r_eof _); [discriminate|]. apply some_inj in H as <-. now prims.
  - apply RR_quiet. assert (G : p_state st <> Closed -> Some (connection_lost st o closing) = Some st' -> reach st st').
    { intros N H'. apply some_inj in H' as <-. eapply reach_step; [exact R|]. now apply P_lost. }
    destruct (p_state st) eqn:Ho; try discriminate; now apply G.
  - apply RR_quiet. apply some_inj in H as <-. now prims.
  - apply RR_quiet. apply some_inj in H as <-. now prims.
  - apply RR_quiet. apply some_inj in H as <-. now prims.
  - apply RR_quiet. destruct (nth_error _ _) as [[pc c]|]; [|discriminate].
    destruct pc; try discriminate; apply some_inj in H as <-; now prims.
  - now apply reach_step_T.
  - apply RR_quiet. eapply reach_step_K; eauto.
  - apply RR_quiet. eapply reach_step_C; eauto.
  - apply RR_quiet. unfold step_user in H. destruct (nth_error _ _) as [[pc c]|]; [|discriminate].
    assert (G : step_call X cfg st i pc a = Some st' -> reach st st')
      by (intros; eapply reach_step_call; eauto).
    assert (G' : match a with Go => Some (cancel_call X cfg st i pc) | _ => None end = Some st' ->
                 reach st st').
    { destruct a; try discriminate. intros H'. apply some_inj in H' as <-. now apply reach_cancel_call. }
    destruct c; destruct pc; try discriminate; auto.
Qed.


(* Invariants of executions *)
Theorem exec_invariant (I : conn E -> Prop) st ls st' :
  (forall st1 st2, I st1 -> prim st1 st2 -> I st2) ->
  (forall st1 f, I st1 -> I (record_frame st1 f)) ->
  may_open -> I st -> exec X cfg st ls = Some st' -> I st'.
Proof.
  intros HI HF Mo. assert (HR : forall st1 st2, I st1 -> reach st1 st2 -> I st2).
  { intros st1 st2 H0 H. induction H as [|st2 st3 R IH P]; [assumption|]. eapply HI; eassumption. }
  revert st. induction ls as [|l ls IH]; cbn [exec]; intros st H0 H.
  - now apply some_inj in H as <-.
  - destruct (step X cfg st l) as [st1|] eqn:S1; [|discriminate].
    apply (IH st1); [|exact H]. apply step_reach in S1; [|auto]. destruct S1 as [st3 R|c f st2 st3 _ R1 _ _ _ R2]; eauto.
Qed.

Lemma reach_invariant (I : conn E -> Prop) st st' :
  (forall st1 st2, I st1 -> prim st1 st2 -> I st2) -> I st -> reach st st' -> I st'.
Proof. intros HI H0 H. induction H; [assumption|]. eapply HI; eassumption. Qed.
End Prims.
