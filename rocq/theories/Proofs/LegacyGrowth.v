(* A generic argument about the frames written: a relation between states which holds when a frame is
   written or read, and when neither the frames written nor the extensions change, holds for all steps. *)
From Verif Require Import Base.Prelude Base.PreludeFacts Model.Streams Model.Frames
  Model.LegacyFraming Model.LegacyProtocol Spec.Asyncio
  Proofs.LegacyShapes Proofs.LegacyUsers Proofs.LegacyFields Proofs.LegacyClose Proofs.LegacyQueue
  Proofs.LegacyMessages Proofs.LegacyFragments.
Local Open Scope N_scope.

Section Growth.
Context {E : Type} (X : ext_ops E) (cfg : config).
Implicit Type st : conn E.
Definition reading st c :=
  run (legacy_read X (negb (c_client cfg)) (read_limit cfg c)) (p_reader st) (p_exts st).
Variable ow : conn E -> conn E -> Prop.
Hypothesis ow_same : forall st st', p_out st' = p_out st -> p_exts st' = p_exts st -> ow st st'.
Hypothesis ow_trans : forall st st1 st2, ow st st1 -> ow st1 st2 -> ow st st2.
(* the frames which may be written, and the data which may be sent *)
Variable Small : frame -> Prop.
Variable SmallD : py_data -> Prop.
Hypothesis small_ctrl : forall fin op data, is_ctrl op = true -> Small (mkframe fin op data).
Hypothesis small_empty : Small (mkframe true CONT []).
Hypothesis small_data : forall d op data fin op', SmallD d -> prepare_data d = Ok (op, data) ->
  Small (mkframe fin op' data).
Hypothesis write_ow : forall st by_ f st' e, Small f -> write X cfg st by_ f = (st', e) -> ow st st'.
Hypothesis read_ow : forall st c f r exts,
  reading st c = ODone f r exts ->
  ow st (set_in (p_in st ++ [f]) (set_reader r (set_exts exts st))).
Hypothesis read_fail_ow : forall st c e r exts,
  reading st c = OFail e r exts ->
  ow st (set_reader r (set_exts exts st)).
Lemma ow_refl st : ow st st.
Proof. now apply ow_same. Qed.
Ltac ow := intros; first [now apply ow_same|eassumption|eapply ow_trans; [eassumption|now apply ow_same]].

Lemma write_frame_ow st by_ fin op data expected st' e : 
  Small (mkframe fin op data) -> write_frame X cfg st by_ fin op data expected = (st', e) -> ow st st'.
Proof.
  intros Sm. unfold write_frame. destruct (negb _); [|now apply write_ow]. intros H.
  apply pair_equal_spec in H as [<- _]. ow.
Qed.
Lemma write_close_frame_ow st by_ data st' e : 
  write_close_frame X cfg st by_ data = (st', e) -> ow st st'.
Proof.
  unfold write_close_frame. destruct (is_open _).
  - destruct (write_frame _ _ _ _ _ _ _ _) as [st2 e2] eqn:W. intros H. apply pair_equal_spec in H as [<- _].
    apply write_frame_ow in W; [|now apply small_ctrl]. apply (ow_trans _ (set_state Closing st)); [ow|exact W].
  - intros H. apply pair_equal_spec in H as [<- _]. ow.
Qed.
Lemma start_ping_ow st by_ data st' e : start_ping X cfg st by_ data = (st', e) -> ow st st'.
Proof. unfold start_ping. cbv zeta. intros H. apply write_frame_ow in H; [|now apply small_ctrl]. eapply ow_trans; [|exact H]. ow. Qed.
Ltac written W := first [apply start_ping_ow in W|apply write_close_frame_ow in W
  |apply write_frame_ow in W; [|first [now apply small_ctrl|exact small_empty|eapply small_data; eassumption]]].

Lemma cancel_T_ow st : ow st (cancel_T st).
Proof. unfold cancel_T. destruct (_ && _); ow. Qed.
Lemma fail_ow st code st' e : fail_connection X cfg st code = (st', e) -> ow st st'.
Proof.
  unfold fail_connection. intros H. eapply ow_trans; [apply cancel_T_ow|].
  revert H. generalize (cancel_T st). clear st. intros st.
  assert (G : forall st2 e2,
    (if negb (code =? 1006)%Z && is_open (p_state st)
     then match serialize_close code [] with
          | Raise e => (st, Some e)
          | Ok data => write X cfg (set_state Closing st) ByFailure (mkframe true CLOSE data)
          end
     else (st, None)) = (st2, e2) -> ow st st2).
  { intros st2 e2. destruct (_ && _); [|intros Q; apply pair_equal_spec in Q as [<- _]; apply ow_refl].
    destruct (serialize_close _ _); [|intros Q; apply pair_equal_spec in Q as [<- _]; apply ow_refl].
    intros Q. apply write_ow in Q; [|now apply small_ctrl]. apply (ow_trans _ (set_state Closing st)); [ow|exact Q]. }
  destruct (if _ && _ then _ else _) as [st2 e2] eqn:Q. intros H. eapply ow_trans; [exact (G _ _ eq_refl)|].
  destruct e2; apply pair_equal_spec in H as [<- _]; [apply ow_refl|].
  destruct (p_C st2) eqn:HC; ow.
Qed.
Lemma after_drain_ow st a st' r : after_drain X cfg st a = Some (st', r) -> ow st st'.
Proof.
  unfold after_drain. destruct a; try discriminate.
  - intros H. apply some_inj, pair_equal_spec in H as [<- _]. apply ow_refl.
  - destruct (p_lost st) as [l|]; [|discriminate].
    assert (G : (let '(st2, _) := fail_connection X cfg st 1006 in Some (st2, ensure_open st2)) = Some (st', r) -> ow st st').
    { destruct (fail_connection _ _ _ _) as [st2 e2] eqn:F. intros H.
      apply some_inj, pair_equal_spec in H as [<- _]. now apply fail_ow in F. }
    destruct l as [[]|]; destruct o; try discriminate; try exact G;
      intros H; apply some_inj, pair_equal_spec in H as [<- _]; apply ow_refl.
Qed.


Section Call.
Variable i : nat.
Lemma recv_loop_ow st : ow st (recv_loop st i).
Proof.
  unfold recv_loop. destruct (p_messages st).
  - destruct (T_exists _); ow.
  - change (p_put (set_messages l st)) with (p_put st). destruct (p_put st); [|ow].
    destruct (set_result _ _); ow.
Qed.
Lemma recv_resume_ow st w : ow st (recv_resume cfg st i w).
Proof.
  unfold recv_resume. destruct (fut_done _).
  - eapply ow_trans; [|apply recv_loop_ow]. ow.
  - destruct (c_legacy_recv cfg); [ow|]. destruct (ensure_open _); [|ow|ow].
    eapply ow_trans; [|apply recv_loop_ow]. ow.
Qed.
Lemma end_fragments_ow st r : ow st (end_fragments st i r).
Proof. unfold end_fragments. destruct (p_frag st); [|ow]. destruct (set_result _ _); ow. Qed.
Lemma raise_fragments_ow st e : ow st (raise_fragments X cfg st i e).
Proof.
  unfold raise_fragments.
  destruct (fail_connection X cfg st 1011) as [st2 e2] eqn:F. apply fail_ow in F.
  destruct e; try (eapply ow_trans; [exact F|apply end_fragments_ow]).
  apply end_fragments_ow.
Qed.
Lemma send_item_ow st op rest d : SmallD d -> ow st (send_item X cfg st i op rest d).
Proof.
  intros Sd. unfold send_item. destruct (prepare_data d) as [[op' data]|e] eqn:Pd; [|apply raise_fragments_ow].
  destruct (negb _); [apply raise_fragments_ow|].
  destruct (write_frame _ _ _ _ _ _ _ _) as [st2 e] eqn:W. written W. destruct e.
  - eapply ow_trans; [|apply raise_fragments_ow]. ow.
  - ow.
Qed.
Lemma send_last_ow st : ow st (send_last X cfg st i).
Proof.
  unfold send_last.
  destruct (write_frame _ _ _ _ _ _ _ _) as [st2 e] eqn:W. written W. destruct e.
  - eapply ow_trans; [|apply raise_fragments_ow]. ow.
  - ow.
Qed.
Definition SmallS (src : source) : Prop := match src with Sync items _ => Forall SmallD items | Async => True end.
Definition SmallM (m : sendable) : Prop :=
  match m with SData d => SmallD d | SIter items _ => Forall SmallD items | _ => True end.
Definition SmallPc (pc : upc) : Prop :=
  match pc with UStart (CallSend m) | USendFrag _ m => SmallM m | UFragDrain _ src => SmallS src | _ => True end.
Definition SmallA (a : act) : Prop := match a with Next (Item d) => SmallD d | _ => True end.
Lemma send_next_ow st op src : SmallS src -> ow st (send_next X cfg st i op src).
Proof.
  intros Sm.
  destruct src as [[|d items] [e|]|]; cbn [send_next];
    [apply raise_fragments_ow|apply send_last_ow|apply send_item_ow; now inversion Sm|apply send_item_ow; now inversion Sm|ow].
Qed.
Lemma send_first_ow st rest d : SmallD d -> ow st (send_first X cfg st i rest d).
Proof.
  intros Sd. unfold send_first. destruct (prepare_data d) as [[op data]|e] eqn:Pd; [|ow].
  destruct (write_frame _ _ _ _ _ _ _ _) as [st2 e] eqn:W. written W.
  match type of W with ow ?s _ => apply (ow_trans _ s); [now apply ow_same|] end. destruct e.
  - eapply ow_trans; [|apply raise_fragments_ow]. ow.
  - ow.
Qed.
Lemma send_loop_ow st m : SmallM m -> ow st (send_loop X cfg st i m).
Proof.
  intros Sm. unfold send_loop. destruct (p_frag st); [ow|].
  destruct m as [d| |[|d items] [e|]| |]; cbn [SmallM] in Sm; try (ow; fail); try (apply send_first_ow; now inversion Sm).
  destruct (prepare_data d) as [[op data]|e] eqn:Pd; [|ow].
  destruct (write_frame _ _ _ _ _ _ _ _) as [st2 e] eqn:W. written W. destruct e; ow.
Qed.
Lemma close_wait_T_ow st t0 : ow st (close_wait_T cfg st i t0).
Proof. unfold close_wait_T. destruct (T_exists st); ow. Qed.
Lemma close_timed_out_ow st t0 : ow st (close_timed_out X cfg st i t0).
Proof.
  unfold close_timed_out. destruct (fail_connection _ _ _ _) as [st2 e2] eqn:F. apply fail_ow in F.
  eapply ow_trans; [exact F|apply close_wait_T_ow].
Qed.
Lemma close_start_ow st code reason : ow st (close_start X cfg st i code reason).
Proof.
  unfold close_start. destruct (serialize_close _ _); [|ow].
  assert (G : ow st
     match write_close_frame X cfg st (ByCall i) a with
     | (st2, Some (Some e)) => raise_ i (PyExn e) st2
     | (st2, Some None) => set_user i (UCloseWrite (deadline st2 (c_close_timeout cfg)) (p_now st2)) st2
     | (st2, None) => close_wait_T cfg st2 i (p_now st2)
     end).
  { destruct (write_close_frame _ _ _ _ _) as [st2 r] eqn:W. written W.
    destruct r as [[e|]|]; [ow|ow|]. eapply ow_trans; [|apply close_wait_T_ow]. ow. }
  destruct (c_close_timeout cfg) as [[|q]|]; [apply close_timed_out_ow|exact G|exact G].
Qed.
Lemma cancel_call_ow st pc : ow st (cancel_call X cfg st i pc).
Proof.
  unfold cancel_call. destruct pc; try (ow; fail); try apply raise_fragments_ow.
  - destruct op; [apply raise_fragments_ow|ow].
  - eapply ow_trans; [apply cancel_T_ow|ow].
Qed.

Ltac some_ow H := apply some_inj in H as <-.

Lemma start_call_ow st c a st' : SmallPc (UStart c) -> start_call X cfg st i c a = Some st' -> ow st st'.
Proof.
  intros Sm. unfold start_call. intros H. destruct c; destruct a; try discriminate; try some_ow H.
  - destruct (p_pop st); [ow|apply recv_loop_ow].
  - destruct (ensure_open st); [now apply send_loop_ow|ow|ow].
  - apply close_start_ow.
  - destruct (ensure_open st); [|some_ow H; ow|some_ow H; ow]. destruct data as [d|].
    + destruct (prepare_ctrl d); [|some_ow H; ow].
      destruct (has_ping _ _); [some_ow H; ow|].
      destruct (start_ping _ _ _ _ _) as [st2 e] eqn:W. written W. destruct e; some_ow H; ow.
    + destruct (random_ok _ _); [|discriminate].
      destruct (start_ping _ _ _ _ _) as [st2 e] eqn:W. written W. destruct e; some_ow H; ow.
  - destruct (ensure_open st); [|ow|ow]. destruct (prepare_ctrl data); [|ow].
    destruct (write_frame _ _ _ _ _ _ _ _) as [st2 e] eqn:W. written W. destruct e; ow.
  - ow.
Qed.

Lemma step_call_ow st pc a st' : SmallPc pc -> SmallA a -> step_call X cfg st i pc a = Some st' -> ow st st'.
Proof.
  intros Sm Sa.
  assert (D : forall (k1 : conn E -> conn E) (k2 : conn E -> pexn -> conn E) (k3 : conn E -> conn E),
    (forall s, ow s (k1 s)) -> (forall s e, ow s (k2 s e)) -> (forall s, ow s (k3 s)) ->
    match after_drain X cfg st a with
    | Some (s2, EOk) => Some (k1 s2)
    | Some (s2, ERaise e) => Some (k2 s2 e)
    | Some (s2, EWait) => Some (k3 s2)
    | None => None
    end = Some st' -> ow st st').
  { intros k1 k2 k3 H1 H2 H3 H. destruct (after_drain _ _ _ _) as [[s2 r]|] eqn:Q; [|discriminate].
    apply after_drain_ow in Q.
    destruct r; some_ow H; (eapply ow_trans; [exact Q|first [apply H1|apply H2|apply H3]]). }
  unfold step_call. intros H. destruct pc.
  - eapply start_call_ow; eassumption.
  - destruct a; try discriminate. destruct (_ || _); [|discriminate]. some_ow H. apply recv_resume_ow.
  - destruct a; try discriminate. destruct (fut_done _); [|discriminate]. some_ow H. now apply send_loop_ow.
  - destruct a; try discriminate. destruct (ensure_open_end st); [|discriminate]. some_ow H. ow.
  - eapply (D (fun s => return_ i RNone s) (fun s e => raise_ i e s) (fun s => set_user i UEnsure s));
      [ow|ow|ow|exact H].
  - eapply (D (fun s => send_next X cfg s i op rest) (fun s e => raise_fragments X cfg s i e)
             (fun s => set_user i UFragEnsure s));
      [intros; now apply send_next_ow|intros; apply raise_fragments_ow|ow|exact H].
  - eapply (D (fun s => end_fragments s i RNone) (fun s e => raise_fragments X cfg s i e)
             (fun s => set_user i UFragEnsure s));
      [intros; apply end_fragments_ow|intros; apply raise_fragments_ow|ow|exact H].
  - destruct a; try discriminate. destruct (ensure_open_end st); [|discriminate]. some_ow H.
    apply raise_fragments_ow.
  - destruct op; destruct a as [| | | | |[]]; try discriminate; some_ow H;
      first [apply send_item_ow; exact Sa|apply send_last_ow|apply raise_fragments_ow
            |apply send_first_ow; exact Sa|ow].
  - eapply (D (fun s => match find_ping s data with
                        | Some w => return_ i (RPing w) s
                        | None => raise_ i (PyExn KeyError) s end) (fun s e => raise_ i e s)
              (fun s => set_user i UEnsure s)); [intros; destruct (find_ping s data); ow|ow|ow|exact H].
  - assert (G : match after_drain X cfg st a with
                | Some (st, EOk) => Some (close_wait_T cfg st i t0)
                | Some (st, ERaise e) => Some (raise_ i e st)
                | Some (st, EWait) => Some (set_user i (UCloseEnsure d t0) st)
                | None => None
                end = Some st' -> ow st st').
    { apply (D (fun s => close_wait_T cfg s i t0) (fun s e => raise_ i e s)
             (fun s => set_user i (UCloseEnsure d t0) s)); [intros; apply close_wait_T_ow|ow|ow]. }
    destruct a; try (now apply G). destruct (expired st d); [|discriminate]. some_ow H.
    apply close_timed_out_ow.
  - destruct a; try discriminate.
    + destruct (ensure_open_end st); [|discriminate]. some_ow H. ow.
    + destruct (expired st d); [|discriminate]. some_ow H. apply close_timed_out_ow.
  - destruct a; try discriminate.
    + destruct (p_T st) as [| | | | | | |[e|]] eqn:HT; try discriminate; some_ow H; ow.
    + destruct (expired st d); [|discriminate]. some_ow H.
      eapply ow_trans; [apply cancel_T_ow|ow].
  - destruct a; try discriminate. destruct (T_done st); [|discriminate]. some_ow H. ow.
  - destruct a; try discriminate.
    destruct (p_C st) as [| | | | | | |[e|]]; try discriminate; some_ow H; ow.
  - destruct a; try discriminate. destruct (is_lost st); [|discriminate]. some_ow H. ow.
  - discriminate.
Qed.
Lemma step_user_ow st a st' : (forall pc c, nth_error (p_users st) i = Some (pc, c) -> SmallPc pc) -> SmallA a ->
  step_user X cfg st i a = Some st' -> ow st st'.
Proof.
  intros Sm Sa. unfold step_user. destruct (nth_error _ _) as [[pc c]|] eqn:Hu; [|discriminate].
  assert (G : step_call X cfg st i pc a = Some st' -> ow st st') by (apply step_call_ow; [exact (Sm pc c eq_refl)|exact Sa]).
  assert (G' : match a with Go => Some (cancel_call X cfg st i pc) | _ => None end = Some st' ->
               ow st st').
  { destruct a; try discriminate. intros H'. apply some_inj in H' as <-. apply cancel_call_ow. }
  destruct c; destruct pc; try discriminate; auto.
Qed.

End Call.
Lemma T_raise_ow st e : ow st (T_raise X cfg st e).
Proof.
  unfold T_raise.
  assert (G : forall code, ow st (let '(st2, e') := fail_connection X cfg st code in set_T (TDone e') st2)).
  { intros code. destruct (fail_connection _ _ _ _) as [st2 e2] eqn:F. apply fail_ow in F.
    eapply ow_trans; [exact F|]. ow. }
  destruct e; try apply G. ow.
Qed.
Lemma after_close_ow st c : ow st (after_close X cfg st c).
Proof. unfold after_close. destruct c; try apply T_raise_ow. ow. Qed.
Lemma put_message_ow st m : ow st (put_message X cfg st m).
Proof.
  unfold put_message. destruct (room cfg st); [|ow].
  destruct (p_pop _); [|ow]. destruct (set_result _ _); [ow|].
  eapply ow_trans; [|apply T_raise_ow]. ow.
Qed.
Lemma on_frame_ow st1 c f : ow st1 (on_frame X cfg st1 c f).
Proof.
  unfold on_frame.
  assert (D : ow st1 match read_message cfg c f with
         | RMsg m => put_message X cfg st1 m
         | RNext c => set_T (TRead c) st1
         | RExn e => T_raise X cfg st1 (PyExn e)
         end)
    by (destruct (read_message cfg c f); [apply put_message_ow|ow|apply T_raise_ow]).
  destruct (f_opcode f); try exact D.
  - destruct (parse_close _) as [k|]; [|apply T_raise_ow].
    apply (ow_trans _ (set_close (Some k) st1)); [ow|].
    destruct (write_close_frame _ _ _ _ _) as [st2 [[?|]|]] eqn:Wc; (apply write_close_frame_ow in Wc);
      (eapply ow_trans; [exact Wc|]); [apply T_raise_ow|ow|apply after_close_ow].
  - destruct (ensure_open _); [|apply T_raise_ow|ow].
    destruct (write_frame _ _ _ _ _ _ _ _) as [st2 [?|]] eqn:Wf; (apply write_frame_ow in Wf; [|now apply small_ctrl]);
      (eapply ow_trans; [exact Wf|]); [apply T_raise_ow|ow].
  - destruct (receive_pong_shape st1 (f_data f)) as (? & ? & ->). ow.
Qed.
Lemma step_T_ow st a st' : step_T X cfg st a = Some st' -> ow st st'.
Proof.
  intros H. unfold step_T in H.
  destruct (p_T st) as [|c|c|c|c|c|m w|e] eqn:HT; try discriminate; (destruct (p_Tcancel st);
    [destruct a; try discriminate; apply some_inj in H as <-; eapply ow_trans; [|apply T_raise_ow]; ow|]).
  - destruct a; try discriminate. unfold read_frame in H.
    assert (G : match run (legacy_read X (negb (c_client cfg)) (read_limit cfg c)) (p_reader st) (p_exts st) with
        | OSusp _ _ _ => None
        | OFail e r exts => Some (T_raise X cfg (set_reader r (set_exts exts st)) (PyExn e))
        | ODone f r exts =>
          let st := set_in (p_in st ++ [f]) (set_reader r (set_exts exts st)) in
          Some (on_frame X cfg st c f)
        end = Some st' -> ow st st').
    { clear H. destruct (run _ _ _) as [? ? ?|f r ex|e r ex] eqn:Run; cbv zeta; try discriminate; intros H;
        apply some_inj in H as <-; [|eapply ow_trans; [exact (read_fail_ow _ _ _ _ _ Run)|apply T_raise_ow]].
      set (st1 := set_in _ _).
      apply (ow_trans _ st1); [exact (read_ow _ _ _ _ _ Run)|]. apply on_frame_ow. }
    destruct (p_lost st) as [[o|]|] eqn:L; [|now apply G|now apply G].
    apply some_inj in H as <-. apply T_raise_ow.
  - destruct (after_drain X cfg st a) as [[st2 r]|] eqn:D; [|discriminate]. apply after_drain_ow in D.
    eapply ow_trans; [exact D|].
    destruct r; apply some_inj in H as <-; [ow|apply T_raise_ow|ow].
  - destruct a; try discriminate. destruct (ensure_open_end st); [|discriminate].
    apply some_inj in H as <-. apply T_raise_ow.
  - destruct (after_drain X cfg st a) as [[st2 r]|] eqn:D; [|discriminate]. apply after_drain_ow in D.
    eapply ow_trans; [exact D|].
    destruct r; apply some_inj in H as <-; [apply after_close_ow|
      destruct (is_closed_exn e); [apply after_close_ow|apply T_raise_ow]|ow].
  - destruct a; try discriminate. destruct (ensure_open_end st); [|discriminate].
    apply some_inj in H as <-. destruct (is_closed_exn p); [apply after_close_ow|apply T_raise_ow].
  - destruct a; try discriminate. destruct (fut_done _); [|discriminate]. apply some_inj in H as <-.
    eapply ow_trans; [|apply put_message_ow]. ow.
Qed.
Lemma step_K_ow st a st' : step_K X cfg st a = Some st' -> ow st st'.
Proof.
  intros H. unfold step_K in H.
  destruct (p_K st); try discriminate; (destruct (p_Kcancel st);
    [destruct a; try discriminate; apply some_inj in H as <-; ow|]).
  - destruct a; try discriminate. destruct (c_ping_interval cfg); apply some_inj in H as <-; ow.
  - destruct a; try discriminate. destruct (_ <=? _); [|discriminate].
    destruct (ensure_open st); [|apply some_inj in H as <-; ow|apply some_inj in H as <-; ow].
    destruct (random_ok _ _); [|discriminate].
    destruct (start_ping _ _ _ _ _) as [st2 e2] eqn:Q. apply start_ping_ow in Q.
    destruct e2; apply some_inj in H as <-; (eapply ow_trans; [exact Q|]; ow).
  - destruct (after_drain X cfg st a) as [[st2 r]|] eqn:D; [|discriminate]. apply after_drain_ow in D.
    eapply ow_trans; [exact D|]. destruct r; apply some_inj in H as <-; try (ow; fail).
    unfold after_ping. destruct (find_ping _ _); [|ow].
    destruct (c_ping_timeout cfg); [|ow]. try destruct (_ =? _); ow.
  - destruct a; try discriminate. destruct (ensure_open_end st); [|discriminate].
    apply some_inj in H as <-. ow.
  - destruct a; try discriminate.
    + destruct (get_fut _ _); try discriminate; apply some_inj in H as <-; ow.
    + destruct (_ <=? _); [|discriminate].
      destruct (fail_connection _ _ _ _) as [st2 e2] eqn:F. apply fail_ow in F. apply some_inj in H as <-.
      eapply ow_trans; [exact F|]. ow.
Qed.

Lemma step_ow st l st' :
  (forall i a, l = LUser i a -> SmallA a /\ forall pc c, nth_error (p_users st) i = Some (pc, c) -> SmallPc pc) ->
  step X cfg st l = Some st' -> ow st st'.
Proof.
  intros Sm H. destruct l; cbn [step] in H.
  - destruct (p_state st); try discriminate. destruct (p_C st); try discriminate. apply some_inj in H as <-. ow.
  - destruct (fail_connection _ _ _ _) as [st2 e2] eqn:F. apply some_inj in H as <-. cbn [fst].
    exact (fail_ow _ _ _ _ F).
  - destruct (r_eof _); [discriminate|]. apply some_inj in H as <-. ow.
  - destruct (r_eof _); [discriminate|]. apply some_inj in H as <-. ow.
  - assert (H' : connection_lost st o closing = st') by (destruct (p_state st); try discriminate; now apply some_inj in H).
    destruct (connection_lost_shape st o closing) as (? & ? & ? & ? & ? & Sh). rewrite Sh in H'. subst st'. ow.
  - apply some_inj in H as <-. ow.
  - apply some_inj in H as <-. ow.
  - apply some_inj in H as <-. ow.
  - destruct (nth_error (p_users st) i) as [[pc0 c0]|] eqn:Hj; [|discriminate].
    assert (H' : set_users (replace i (pc0, true) (p_users st)) st = st')
      by (destruct pc0; try discriminate; now apply some_inj in H).
    subst st'. ow.
  - exact (step_T_ow _ _ _ H).
  - exact (step_K_ow _ _ _ H).
  - apply step_C_shape in H as (? & ? & ? & ? & ? & ->). ow.
  - destruct (Sm i a eq_refl) as [Sa Sp]. exact (step_user_ow i _ _ _ Sp Sa H).
Qed.
End Growth.
