(* Concurrent calls to recv(). *)
From Verif Require Import Base.Prelude Base.PreludeFacts Model.Streams Model.Frames
  Model.LegacyFraming Model.LegacyProtocol Spec.Messages Spec.Asyncio
  Proofs.LegacyPrims Proofs.LegacyFields Proofs.LegacyShapes Proofs.LegacyUsers Proofs.LegacyClose
  Proofs.LegacyQueue Proofs.LegacyMessages.
Local Open Scope N_scope.

Section Recv.
Context {E : Type} (X : ext_ops E) (cfg : config).
Implicit Type st : conn E.

Inductive tp st st' : Prop :=
| tp_same : p_pop st' = p_pop st -> p_pops st' = p_pops st -> p_messages st' = p_messages st -> tp st st'
| tp_put m : p_pop st' = None ->
    p_pops st' = match p_pop st with Some w => replace w FResult (p_pops st) | None => p_pops st end ->
    p_messages st' = p_messages st ++ [m] -> tp st st'.

Lemma put_message_tp st m : Waiters st -> tp st (put_message X cfg st m).
Proof.
  intros [_ W]. unfold put_message. destruct (room cfg st); [|now apply tp_same].
  change (p_pop (set_messages _ st)) with (p_pop st).
  change (p_pops (set_messages _ st)) with (p_pops st).
  destruct (p_pop st) as [w|] eqn:Ep.
  - rewrite (set_result_pending _ _ (W w eq_refl)).
    apply (tp_put _ _ m); [reflexivity| |reflexivity]. now rewrite Ep.
  - apply (tp_put _ _ m); [exact Ep| |reflexivity]. now rewrite Ep.
Qed.
Definition pf st st' : Prop :=
  p_pop st' = p_pop st /\ p_pops st' = p_pops st /\ p_messages st' = p_messages st.
Lemma pf_tp st st1 st' : pf st st1 -> tp st1 st' -> tp st st'.
Proof.
  intros (A1 & A2 & A3) [B1 B2 B3|m B1 B2 B3].
  - apply tp_same; congruence.
  - rewrite A1, A2 in B2. rewrite A3 in B3. now apply (tp_put _ _ m).
Qed.
Lemma step_T_tp st a st' : Waiters st -> step_T X cfg st a = Some st' -> tp st st'.
Proof.
  intros W H.
  assert (Rs : forall st1 e, pf st st1 -> tp st (T_raise X cfg st1 e)).
  { intros st1 e A. eapply pf_tp; [exact A|].
    destruct (T_raise_shape X cfg st1 e) as (? & ? & ? & ? & ? & ? & ->). now apply tp_same. }
  assert (Ac : forall st1 e, pf st st1 -> tp st (after_close X cfg st1 e)).
  { intros st1 e A. eapply pf_tp; [exact A|].
    destruct (after_close_shape X cfg st1 e) as (? & ? & ? & ? & ? & ? & ->). now apply tp_same. }
  unfold step_T in H.
  destruct (p_T st) as [|c|c|c|c|c|m w|e] eqn:HT; try discriminate; (destruct (p_Tcancel st);
    [destruct a; try discriminate; apply some_inj in H as <-; apply Rs; repeat split|]).
  - destruct a; try discriminate. unfold read_frame in H.
    assert (G : match run (legacy_read X (negb (c_client cfg)) (read_limit cfg c)) (p_reader st) (p_exts st) with
        | OSusp _ _ _ => None
        | OFail e r exts => Some (T_raise X cfg (set_reader r (set_exts exts st)) (PyExn e))
        | ODone f r exts =>
          let st := set_in (p_in st ++ [f]) (set_reader r (set_exts exts st)) in
          Some (on_frame X cfg st c f)
        end = Some st' -> tp st st').
    { clear H. destruct (run _ _ _) as [? ? ?|f r ex|e r ex] eqn:Run; cbv zeta; try discriminate; intros H;
        apply some_inj in H as <-; [|apply Rs; repeat split].
      set (st1 := set_in _ _).
      assert (P1 : pf st st1) by (repeat split).
      assert (W1 : Waiters st1) by exact W. clearbody st1. clear Run HT.
      unfold on_frame.
      assert (D : tp st match read_message cfg c f with
             | RMsg m => put_message X cfg st1 m
             | RNext c => set_T (TRead c) st1
             | RExn e => T_raise X cfg st1 (PyExn e)
             end).
      { destruct (read_message cfg c f).
        - eapply pf_tp; [exact P1|now apply put_message_tp].
        - eapply pf_tp; [exact P1|now apply tp_same].
        - now apply Rs. }
      destruct P1 as (P1 & P2 & P3).
      destruct (f_opcode f); try exact D.
      - destruct (parse_close _); [|apply Rs; repeat split; assumption].
        destruct (write_close_frame _ _ _ _ _) as [st2 [[?|]|]] eqn:Wc; shapes.
        + apply Rs. repeat split; assumption.
        + apply tp_same; assumption.
        + apply Ac. repeat split; assumption.
      - destruct (ensure_open _); [|apply Rs; repeat split; assumption|apply tp_same; assumption].
        destruct (write_frame _ _ _ _ _ _ _ _) as [st2 [?|]] eqn:Wf; shapes.
        + apply Rs. repeat split; assumption.
        + apply tp_same; assumption.
      - destruct (receive_pong_shape st1 (f_data f)) as (? & ? & ->). apply tp_same; assumption. }
    destruct (p_lost st) as [[o|]|] eqn:L; [|now apply G|now apply G].
    apply some_inj in H as <-. apply Rs. repeat split.
  - destruct (after_drain X cfg st a) as [[st2 r]|] eqn:D; [|discriminate]. shapes.
    destruct r; apply some_inj in H as <-; [now apply tp_same|apply Rs; repeat split|now apply tp_same].
  - destruct a; try discriminate. destruct (ensure_open_end st); [|discriminate].
    apply some_inj in H as <-. apply Rs. repeat split.
  - destruct (after_drain X cfg st a) as [[st2 r]|] eqn:D; [|discriminate]. shapes.
    destruct r; apply some_inj in H as <-; [apply Ac; repeat split|
      destruct (is_closed_exn e); [apply Ac|apply Rs]; repeat split|now apply tp_same].
  - destruct a; try discriminate. destruct (ensure_open_end st); [|discriminate].
    apply some_inj in H as <-. destruct (is_closed_exn p); [apply Ac|apply Rs]; repeat split.
  - destruct a; try discriminate. destruct (fut_done _); [|discriminate]. apply some_inj in H as <-.
    eapply pf_tp; [|apply put_message_tp]; [repeat split|]. split; [discriminate|apply W].
Qed.

(* what a step other than one of a recv() call does *)
Lemma waiting_replace st st' i pc c :
  p_users st' = replace i (pc, c) (p_users st) -> (forall w, pc <> URecvWait w) ->
  forall j w, waiting st' j w -> waiting st j w /\ j <> i.
Proof.
  intros U N j w [c' H]. rewrite U in H.
  assert (L : (j < length (p_users st))%nat).
  { rewrite <- (length_replace i (pc, c)). apply nth_error_Some. congruence. }
  destruct (Nat.eq_dec i j) as [<-|Hij].
  - rewrite nth_error_replace_eq in H by exact L. injection H as H _. now contradiction (N w).
  - rewrite nth_error_replace_neq in H by exact Hij. split; [now exists c'|congruence].
Qed.
Lemma waiting_replace_back st st' i x :
  p_users st' = replace i x (p_users st) -> forall j w, waiting st j w -> j <> i -> waiting st' j w.
Proof. intros U j w [c H] N. exists c. rewrite U, nth_error_replace_neq by congruence. exact H. Qed.

Inductive quiet st l st' : Prop :=
| q_same : (forall j w, waiting st' j w <-> waiting st j w) -> tp st st' -> quiet st l st'
| q_recv i a pc c : l = LUser i a -> nth_error (p_users st) i = Some (pc, c) ->
    (pc = UStart CallRecv \/ exists w, pc = URecvWait w) -> quiet st l st'.

Lemma step_quiet st l st' : Waiters st -> step X cfg st l = Some st' -> quiet st l st'.
Proof.
  intros W H.
  assert (U : p_users st' = p_users st -> tp st st' -> quiet st l st').
  { intros A1 A2. apply q_same; [|exact A2]. intros j w. unfold waiting. now rewrite A1. }
  destruct l; cbn [step] in H.
  - destruct (p_state st); try discriminate. destruct (p_C st); try discriminate.
    apply some_inj in H as <-. apply U; [reflexivity|now apply tp_same].
  - destruct (fail_connection _ _ _ _) as [st2 e2] eqn:F. apply some_inj in H as <-. shapes.
    apply U; [reflexivity|now apply tp_same].
  - destruct (r_eof _); [discriminate|]. apply some_inj in H as <-. apply U; [reflexivity|now apply tp_same].
  - destruct (r_eof _); [discriminate|]. apply some_inj in H as <-. apply U; [reflexivity|now apply tp_same].
  - destruct (connection_lost_shape st o closing) as (? & ? & ? & ? & ? & Q).
    destruct (p_state st); try discriminate; apply some_inj in H as <-;
      (apply U; [|apply tp_same]; now rewrite Q).
  - apply some_inj in H as <-. apply U; [reflexivity|now apply tp_same].
  - apply some_inj in H as <-. apply U; [reflexivity|now apply tp_same].
  - apply some_inj in H as <-. apply q_same; [|now apply tp_same]. intros j w. unfold waiting.
    cbn [p_users set_users].
    destruct (Nat.lt_ge_cases j (length (p_users st))) as [L|G].
    + now rewrite nth_error_app1 by exact L.
    + rewrite nth_error_app2 by exact G. rewrite (proj2 (nth_error_None _ _) G).
      destruct (j - length (p_users st))%nat as [|[]]; cbn [nth_error]; split; intros [d Q]; discriminate.
  - destruct (nth_error _ _) as [[pc c]|] eqn:Hi; [|discriminate].
    assert (H' : set_users (replace i (pc, true) (p_users st)) st = st') by (destruct pc; congruence).
    clear H. subst st'. apply q_same; [|now apply tp_same]. intros j w. unfold waiting.
    cbn [p_users set_users].
    assert (L : (i < length (p_users st))%nat) by (apply nth_error_Some; congruence).
    destruct (Nat.eq_dec i j) as [<-|Hij].
    + rewrite nth_error_replace_eq by exact L. rewrite Hi.
      split; intros [d Q]; injection Q as -> _; eauto.
    + now rewrite nth_error_replace_neq by exact Hij.
  - assert (A : p_users st' = p_users st).
    { pose proof (step_T_tp st a st' W H) as _. clear U.
      assert (R : forall st1 e, p_users st1 = p_users st -> p_users (T_raise X cfg st1 e) = p_users st).
      { intros st1 e A. destruct (T_raise_shape X cfg st1 e) as (? & ? & ? & ? & ? & ? & ->). exact A. }
      assert (Ac : forall st1 e, p_users st1 = p_users st -> p_users (after_close X cfg st1 e) = p_users st).
      { intros st1 e A. destruct (after_close_shape X cfg st1 e) as (? & ? & ? & ? & ? & ? & ->). exact A. }
      assert (P : forall st1 m, p_users st1 = p_users st -> p_users (put_message X cfg st1 m) = p_users st).
      { intros st1 m A. unfold put_message. destruct (room cfg st1); [|exact A].
        destruct (p_pop _); [|exact A]. destruct (set_result _ _); [exact A|]. now apply R. }
      unfold step_T in H.
      destruct (p_T st) as [|c|c|c|c|c|m w|e] eqn:HT; try discriminate; (destruct (p_Tcancel st);
        [destruct a; try discriminate; apply some_inj in H as <-; now apply R|]).
      - destruct a; try discriminate. unfold read_frame in H.
        destruct (p_lost st) as [[o|]|] eqn:L; [apply some_inj in H as <-; now apply R| |];
          (destruct (run _ _ _) as [? ? ?|f r ex|e r ex] eqn:Run; cbv zeta in H; try discriminate;
            apply some_inj in H as <-; [|now apply R];
            set (st1 := set_in _ _); assert (P1 : p_users st1 = p_users st) by reflexivity;
            clearbody st1; unfold on_frame;
            assert (D : p_users match read_message cfg c f with
               | RMsg m => put_message X cfg st1 m
               | RNext c => set_T (TRead c) st1
               | RExn e => T_raise X cfg st1 (PyExn e)
               end = p_users st) by (destruct (read_message cfg c f); [now apply P|exact P1|now apply R]);
            destruct (f_opcode f); try exact D;
            [ destruct (parse_close _); [|now apply R];
              destruct (write_close_frame _ _ _ _ _) as [st2 [[?|]|]] eqn:Wc; shapes;
              [now apply R|exact P1|now apply Ac]
            | destruct (ensure_open _); [|now apply R|exact P1];
              destruct (write_frame _ _ _ _ _ _ _ _) as [st2 [?|]] eqn:Wf; shapes; [now apply R|exact P1]
            | destruct (receive_pong_shape st1 (f_data f)) as (? & ? & ->); exact P1 ]).
      - destruct (after_drain X cfg st a) as [[st2 r]|] eqn:D; [|discriminate]. shapes.
        destruct r; apply some_inj in H as <-; [reflexivity|now apply R|reflexivity].
      - destruct a; try discriminate. destruct (ensure_open_end st); [|discriminate].
        apply some_inj in H as <-. now apply R.
      - destruct (after_drain X cfg st a) as [[st2 r]|] eqn:D; [|discriminate]. shapes.
        destruct r; apply some_inj in H as <-; [now apply Ac|
          destruct (is_closed_exn e); [now apply Ac|now apply R]|reflexivity].
      - destruct a; try discriminate. destruct (ensure_open_end st); [|discriminate].
        apply some_inj in H as <-. destruct (is_closed_exn p); [now apply Ac|now apply R].
      - destruct a; try discriminate. destruct (fut_done _); [|discriminate]. apply some_inj in H as <-.
        now apply P. }
    apply U; [exact A|]. eapply step_T_tp; eauto.
  - apply step_K_shape in H as (? & ? & ? & ? & ? & ? & ? & ? & ->). apply U; [reflexivity|now apply tp_same].
  - apply step_C_shape in H as (? & ? & ? & ? & ? & ->). apply U; [reflexivity|now apply tp_same].
  - destruct (step_user_sameq X cfg st i a st' H) as [S1|(pc & c & S1 & S2)];
      [|now apply (q_recv _ _ _ i a pc c)].
    destruct S1 as ((pc & A1 & A2) & A3 & A4 & A5 & A6 & A7 & A8).
    assert (N : forall w, pc <> URecvWait w) by (intros w ->; exact A2).
    destruct (nth_error (p_users st) i) as [[pc0 c0]|] eqn:Hi;
      [|unfold step_user in H; rewrite Hi in H; discriminate].
    assert (D : (exists w, pc0 = URecvWait w) \/ forall w, pc0 <> URecvWait w)
      by (destruct pc0; try (right; discriminate); left; eauto).
    destruct D as [D|D]; [apply (q_recv _ _ _ i a pc0 c0); auto|].
    apply q_same; [|now apply tp_same]. intros j w. split.
    + intros Q. now apply (waiting_replace _ _ _ _ _ A1 N) in Q.
    + intros Q. apply (waiting_replace_back _ _ _ _ A1 j w Q). intros ->.
      destruct Q as [c Q]. rewrite Hi in Q. injection Q as Q _. now apply (D w).
Qed.

(** A recv() call runs *)
Inductive rp st i st' : Prop :=
| rp_wait w : w = length (p_pops st) -> p_messages st = [] -> p_messages st' = [] -> p_pop st' = Some w ->
    p_pops st' = p_pops st ++ [FPending] -> p_users st' = replace i (URecvWait w, false) (p_users st) -> rp st i st'
| rp_end pc : (forall w, pc <> URecvWait w) -> p_pop st' = None ->
    (p_pops st' = p_pops st \/ p_pops st' = p_pops st ++ [FPending]) ->
    p_users st' = replace i (pc, false) (p_users st) ->
    (p_messages st' = p_messages st \/ exists m, p_messages st = m :: p_messages st') -> rp st i st'.
Lemma recv_loop_rp st i : Waiters st -> p_pop st = None -> rp st i (recv_loop st i).
Proof.
  intros [W1 W2] Hp. unfold recv_loop. destruct (p_messages st) as [|m rest] eqn:Em.
  - destruct (T_exists _).
    + apply (rp_wait _ _ _ (length (p_pops st))); try reflexivity; exact Em.
    + apply (rp_end _ _ _ (UDone (RRaise (PyExn AttributeError)))); try reflexivity; try discriminate;
        [now right|now left].
  - change (p_put (set_messages rest st)) with (p_put st).
    destruct (p_put st) as [w|] eqn:Eput.
    + change (p_puts (set_messages rest st)) with (p_puts st).
      rewrite (set_result_pending _ _ (W1 w eq_refl)).
      apply (rp_end _ _ _ (UDone (RMessage m))); try reflexivity; try discriminate; [exact Hp|now left|].
      right. now exists m.
    + apply (rp_end _ _ _ (UDone (RMessage m))); try reflexivity; try discriminate; [exact Hp|now left|].
      right. now exists m.
Qed.
Lemma rp_pop_none st i st' : rp (set_pop None st) i st' -> rp st i st'.
Proof.
  intros [w ? ? ? ? ? ?|pc ? ? ? ? ?]; [now apply (rp_wait _ _ _ w)|now apply (rp_end _ _ _ pc)].
Qed.
Lemma step_user_recv st i a st' w c :
  Waiters st -> nth_error (p_users st) i = Some (URecvWait w, c) -> step_user X cfg st i a = Some st' ->
  rp st i st'.
Proof.
  intros W Hi H. unfold step_user in H. rewrite Hi in H. apply rp_pop_none.
  assert (W' : Waiters (set_pop None st)) by (split; [apply W|discriminate]).
  destruct c.
  - destruct a; try discriminate. apply some_inj in H as <-. cbn [cancel_call].
    apply (rp_end _ _ _ (UDone (RRaise CancelledError))); try reflexivity; try discriminate; now left.
  - unfold step_call in H. destruct a; try discriminate. destruct (_ || _); [|discriminate].
    apply some_inj in H as <-. unfold recv_resume. cbv zeta.
    destruct (fut_done _); [now apply recv_loop_rp|].
    destruct (c_legacy_recv cfg).
    + apply (rp_end _ _ _ (UDone RNone)); try reflexivity; try discriminate; now left.
    + destruct (ensure_open _); [now apply recv_loop_rp| |].
      * apply (rp_end _ _ _ (UDone (RRaise e))); try reflexivity; try discriminate; now left.
      * apply (rp_end _ _ _ UEnsure); try reflexivity; try discriminate; now left.
Qed.
(* a call that starts *)
Lemma step_user_start st i a st' c :
  Waiters st -> nth_error (p_users st) i = Some (UStart CallRecv, c) -> step_user X cfg st i a = Some st' ->
  a = Go /\
  ((c = true /\ st' = raise_ i CancelledError st) \/
   (c = false /\ p_pop st <> None /\ st' = raise_ i (PyExn RuntimeError) st) \/
   (c = false /\ p_pop st = None /\ rp st i st' /\ st' = recv_loop st i)).
Proof.
  intros W Hi H. unfold step_user in H. rewrite Hi in H.
  destruct c.
  - destruct a; try discriminate. apply some_inj in H as <-. split; [reflexivity|]. left. now split.
  - unfold step_call, start_call in H. destruct a; try discriminate. apply some_inj in H as <-.
    split; [reflexivity|]. right. destruct (p_pop st) eqn:Ep; [left|right].
    + split; [reflexivity|]. split; [discriminate|reflexivity].
    + split; [reflexivity|]. split; [reflexivity|]. split; [now apply recv_loop_rp|reflexivity].
Qed.

(** The future registered by the connection belongs to a call that waits *)
Definition Registered st : Prop := forall w, p_pop st = Some w -> exists j, waiting st j w.

Lemma tp_pop st st' w : tp st st' -> p_pop st' = Some w -> p_pop st = Some w.
Proof. intros [A _ _|m A _ _] H; congruence. Qed.

Lemma Registered_step st l st' :
  Waiters st -> Registered st -> step X cfg st l = Some st' -> Registered st'.
Proof.
  intros W R H. destruct (step_quiet st l st' W H) as [Q1 Q2|i a pc c -> Hi Hpc].
  - intros w Hw. destruct (R w (tp_pop _ _ _ Q2 Hw)) as [j Hj]. exists j. now apply Q1.
  - cbn [step] in H. assert (L : (i < length (p_users st))%nat) by (apply nth_error_Some; congruence).
    assert (P : rp st i st' -> Registered st').
    { intros [w ? ? ? Hp ? U|pc' ? Hp ? ? ?] w' Hw; [|congruence].
      exists i. exists false. rewrite U, nth_error_replace_eq by exact L. congruence. }
    assert (S : forall e, st' = raise_ i e st -> pc = UStart CallRecv -> Registered st').
    { intros e -> -> w Hw. destruct (R w Hw) as [j Hj]. exists j.
      refine (waiting_replace_back st (raise_ i e st) i (UDone (RRaise e), false) eq_refl j w Hj _). intros ->.
      destruct Hj as [d Hj]. congruence. }
    destruct Hpc as [-> |[w ->]]; [|apply P; eapply step_user_recv; eauto].
    destruct (step_user_start st i a st' c W Hi H) as [_ [[_ Q]|[(_ & _ & Q)|(_ & _ & Q & _)]]];
      [eapply S; eauto|eapply S; eauto|exact (P Q)].
Qed.
Lemma Registered_exec exts ls st : exec X cfg (initial exts) ls = Some st -> Registered st.
Proof.
  intros H. apply (exec_steps X cfg (fun st => (Base st /\ Recv cfg st) /\ Registered st)) in H; [tauto| |].
  - intros st1 l st2 [[B R] G] H1. split; [split; [eapply Base_step; eauto|eapply Recv_step; eauto]|].
    eapply Registered_step; eauto. apply R.
  - split; [now apply (Recv_exec X cfg exts [])|]. intros w Q. discriminate.
Qed.

(** When no call starts while another call has been woken up and hasn't run yet *)
Definition One st : Prop :=
  (forall j w j' w', waiting st j w -> waiting st j' w' -> j = j') /\
  (forall j w, waiting st j w ->
     (p_pop st = Some w /\ pending (p_pops st) w /\ p_messages st = []) \/
     (p_pop st = None /\ succeeded (p_pops st) w /\ p_messages st <> [])).

Lemma One_step st l st' :
  Waiters st -> One st -> ~ overtakes st l -> step X cfg st l = Some st' -> One st'.
Proof.
  intros W [O1 O2] Ho H. destruct (step_quiet st l st' W H) as [Q1 Q2|i a pc c -> Hi Hpc].
  - split; [intros j w j' w' A1 A2; apply Q1 in A1, A2; eauto|].
    intros j w A. apply Q1 in A. destruct (O2 j w A) as [(B1 & B2 & B3)|(B1 & B2 & B3)].
    + destruct Q2 as [C1 C2 C3|m C1 C2 C3].
      * left. rewrite C1, C2, C3. auto.
      * right. rewrite C1, C2, C3, B1. split; [reflexivity|].
        split; [|destruct (p_messages st); discriminate].
        apply nth_error_replace_eq. eapply pending_lt, B2.
    + right. destruct Q2 as [C1 C2 C3|m C1 C2 C3].
      * rewrite C1, C2, C3. auto.
      * rewrite C1, C2, C3, B1. split; [reflexivity|]. split; [exact B2|].
        destruct (p_messages st); discriminate.
  - cbn [step] in H. assert (L : (i < length (p_users st))%nat) by (apply nth_error_Some; congruence).
    destruct Hpc as [-> |[w ->]].
    + destruct (step_user_start st i a st' c W Hi H) as [_ S].
      assert (S' : forall e, st' = raise_ i e st -> One st').
      { intros e ->.
        assert (Wt : forall j w, waiting (raise_ i e st) j w -> waiting st j w).
        { intros j w Q.
          refine (proj1 (waiting_replace st (raise_ i e st) i (UDone (RRaise e)) false eq_refl _ j w Q)).
          discriminate. }
        split; [intros j w j' w' A1 A2; apply Wt in A1, A2; eauto|].
        intros j w A. apply Wt in A. exact (O2 j w A). }
      destruct S as [[_ Q]|[(_ & _ & Q)|(_ & Hp & Q & _)]]; [eapply S'; eauto|eapply S'; eauto|].
      assert (None' : forall j w, ~ waiting st j w).
      { intros j w A. destruct (O2 j w A) as [(B1 & _)|(_ & B2 & _)]; [congruence|].
        apply Ho. exists i, a, c, j, w. split; [reflexivity|]. split; [exact Hi|]. split; [exact A|].
        unfold pending, succeeded in *. congruence. }
      destruct Q as [w Hw M M' P Ps U|pc' N P Ps U M].
      * assert (Wt : forall j w', waiting st' j w' -> j = i /\ w' = w).
        { intros j w' [d A]. rewrite U in A. destruct (Nat.eq_dec i j) as [<-|Hij].
          - rewrite nth_error_replace_eq in A by exact L. split; [reflexivity|congruence].
          - rewrite nth_error_replace_neq in A by exact Hij. contradiction (None' j w'). now exists d. }
        split; [intros j w1 j' w2 A1 A2; apply Wt in A1, A2; destruct A1, A2; congruence|].
        intros j w' A. apply Wt in A as [-> ->]. left. split; [exact P|].
        split; [rewrite Ps, Hw; apply pending_new|exact M'].
      * assert (Wt : forall j w', ~ waiting st' j w').
        { intros j w' A. apply (waiting_replace _ _ _ _ _ U N) in A as [A _]. now apply (None' j w'). }
        split; [intros j w1 j' w2 A1; now apply Wt in A1|]. intros j w' A. now apply Wt in A.
    + assert (Only : forall j w', waiting st j w' -> j = i) by (intros j w' A; apply (O1 j w' i w A); now exists c).
      destruct (step_user_recv st i a st' w c W Hi H) as [w1 Hw M M' P Ps U|pc' N P Ps U M].
      * assert (Wt : forall j w', waiting st' j w' -> j = i /\ w' = w1).
        { intros j w' [d A]. rewrite U in A. destruct (Nat.eq_dec i j) as [<-|Hij].
          - rewrite nth_error_replace_eq in A by exact L. split; [reflexivity|congruence].
          - rewrite nth_error_replace_neq in A by exact Hij. contradiction Hij.
            symmetry. apply (Only j w'). now exists d. }
        split; [intros j w2 j' w3 A1 A2; apply Wt in A1, A2; destruct A1, A2; congruence|].
        intros j w' A. apply Wt in A as [-> ->]. left. split; [exact P|].
        split; [rewrite Ps, Hw; apply pending_new|exact M'].
      * assert (Wt : forall j w', ~ waiting st' j w').
        { intros j w' A. apply (waiting_replace _ _ _ _ _ U N) in A as [A D]. apply D. eauto. }
        split; [intros j w1 j' w2 A1; now apply Wt in A1|]. intros j w' A. now apply Wt in A.
Qed.
End Recv.

Section Exec.
Context {E : Type} (X : ext_ops E) (cfg : config).
Lemma One_exec exts ls st :
  (forall before l after st1, ls = before ++ l :: after -> exec X cfg (initial exts) before = Some st1 ->
     ~ overtakes st1 l) ->
  exec X cfg (initial exts) ls = Some st -> One st.
Proof.
  revert st. induction ls as [|l ls IH] using rev_ind; intros st Ho H.
  - cbn in H. apply some_inj in H as <-. split; [intros j w ? ? [c Q]|intros j w [c Q]]; destruct j; discriminate.
  - rewrite exec_app in H. destruct (exec X cfg (initial exts) ls) as [st1|] eqn:H1; [|discriminate].
    cbn [exec] in H. destruct (step X cfg st1 l) as [st2|] eqn:H2; [|discriminate].
    apply some_inj in H as <-.
    apply (One_step X cfg st1 l); [|apply IH; [|reflexivity]|exact (Ho ls l [] st1 eq_refl H1)|exact H2].
    + now destruct (Recv_exec X cfg exts ls st1 H1) as (_ & W & _).
    + intros before l' after st' -> Hb. apply (Ho before l' (after ++ [l]) st'); [|exact Hb].
      now rewrite <- app_assoc.
Qed.
End Exec.
