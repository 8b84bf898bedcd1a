(* Who writes what: frames are written by the call which sends them. *)
From Verif Require Import Base.Prelude Base.PreludeFacts Model.Streams Model.Frames
  Model.LegacyFraming Model.LegacyProtocol Spec.Asyncio
  Proofs.LegacyShapes Proofs.LegacyUsers Proofs.LegacyFields Proofs.LegacyClose Proofs.LegacyQueue
  Proofs.LegacyMessages Proofs.LegacyFragments.
Local Open Scope N_scope.

Section Writers.
Context {E : Type} (X : ext_ops E) (cfg : config).
Implicit Type st : conn E.

(* The j-th call writes nothing *)
Section Other.
Variable j : nat.
Definition ow st st' : Prop := written_by (ByCall j) st' = written_by (ByCall j) st.

Lemma ow_refl st : ow st st.
Proof. reflexivity. Qed.
Lemma ow_trans st st1 st2 : ow st st1 -> ow st1 st2 -> ow st st2.
Proof. unfold ow. congruence. Qed.
Ltac ow := intros; first [reflexivity|eassumption].

Lemma written_app w st x : o_by x <> w -> written_by w (set_out (p_out st ++ [x]) st) = written_by w st.
Proof.
  intros H. unfold written_by. cbn [p_out set_out]. rewrite filter_app, map_app. cbn [filter].
  destruct (writer_eq_dec (o_by x) w); [contradiction|]. now rewrite app_nil_r.
Qed.
Lemma write_ow st by_ f st' e : by_ <> ByCall j -> write X cfg st by_ f = (st', e) -> ow st st'.
Proof.
  intros N. unfold write. destruct (serialize _ _ _ _ _) as [exts r]. intros H.
  destruct r; apply pair_equal_spec in H as [<- _]; [|reflexivity].
  now apply (written_app (ByCall j) (set_exts exts st)).
Qed.
Lemma write_frame_ow st by_ fin op data expected st' e : by_ <> ByCall j ->
  write_frame X cfg st by_ fin op data expected = (st', e) -> ow st st'.
Proof.
  intros N. unfold write_frame. destruct (negb _); [|now apply write_ow]. intros H.
  apply pair_equal_spec in H as [<- _]. reflexivity.
Qed.
Lemma write_close_frame_ow st by_ data st' e : by_ <> ByCall j ->
  write_close_frame X cfg st by_ data = (st', e) -> ow st st'.
Proof.
  intros N. unfold write_close_frame. destruct (is_open _).
  - destruct (write_frame _ _ _ _ _ _ _ _) as [st2 e2] eqn:W. intros H. apply pair_equal_spec in H as [<- _].
    now apply write_frame_ow in W.
  - intros H. apply pair_equal_spec in H as [<- _]. reflexivity.
Qed.
Lemma start_ping_ow st by_ data st' e : by_ <> ByCall j -> start_ping X cfg st by_ data = (st', e) -> ow st st'.
Proof. intros N. unfold start_ping. cbv zeta. intros H. now apply write_frame_ow in H. Qed.
Ltac written W := first [apply write_frame_ow in W; [|congruence]|apply write_close_frame_ow in W; [|congruence]
  |apply start_ping_ow in W; [|congruence]].

Lemma cancel_T_ow st : ow st (cancel_T st).
Proof. unfold cancel_T. destruct (_ && _); reflexivity. Qed.
Lemma fail_ow st code st' e : fail_connection X cfg st code = (st', e) -> ow st st'.
Proof.
  unfold fail_connection. intros H. eapply ow_trans; [apply cancel_T_ow|].
  revert H. generalize (cancel_T st). clear st. intros st.
  assert (G : forall st2 e2,
    (if negb (code =? 1006)%Z && is_open (p_state st)
     then match serialize_close code [] with
          | Raise e => (st, Some e)
          | Ok data => write X cfg (set_state Closing st) ByFailure (mkframe true CLOSE data)
          end
     else (st, None)) = (st2, e2) -> ow st st2).
  { intros st2 e2. destruct (_ && _); [|intros Q; apply pair_equal_spec in Q as [<- _]; apply ow_refl].
    destruct (serialize_close _ _); [|intros Q; apply pair_equal_spec in Q as [<- _]; apply ow_refl].
    intros Q. apply write_ow in Q; [exact Q|discriminate]. }
  destruct (if _ && _ then _ else _) as [st2 e2] eqn:Q. intros H. eapply ow_trans; [exact (G _ _ eq_refl)|].
  destruct e2; apply pair_equal_spec in H as [<- _]; [apply ow_refl|].
  destruct (p_C st2) eqn:HC; reflexivity.
Qed.
Lemma after_drain_ow st a st' r : after_drain X cfg st a = Some (st', r) -> ow st st'.
Proof.
  unfold after_drain. destruct a; try discriminate.
  - intros H. apply some_inj, pair_equal_spec in H as [<- _]. apply ow_refl.
  - destruct (p_lost st) as [l|]; [|discriminate].
    assert (G : (let '(st2, _) := fail_connection X cfg st 1006 in Some (st2, ensure_open st2)) = Some (st', r) -> ow st st').
    { destruct (fail_connection _ _ _ _) as [st2 e2] eqn:F. intros H.
      apply some_inj, pair_equal_spec in H as [<- _]. now apply fail_ow in F. }
    destruct l as [[]|]; destruct o; try discriminate; try exact G;
      intros H; apply some_inj, pair_equal_spec in H as [<- _]; apply ow_refl.
Qed.


Section Call.
Variable i : nat.
Hypothesis Hij : i <> j.
Lemma recv_loop_ow st : ow st (recv_loop st i).
Proof.
  unfold recv_loop. destruct (p_messages st).
  - destruct (T_exists _); ow.
  - change (p_put (set_messages l st)) with (p_put st). destruct (p_put st); [|ow].
    destruct (set_result _ _); ow.
Qed.
Lemma recv_resume_ow st w : ow st (recv_resume cfg st i w).
Proof.
  unfold recv_resume. destruct (fut_done _).
  - eapply ow_trans; [|apply recv_loop_ow]. ow.
  - destruct (c_legacy_recv cfg); [ow|]. destruct (ensure_open _); [|ow|ow].
    eapply ow_trans; [|apply recv_loop_ow]. ow.
Qed.
Lemma end_fragments_ow st r : ow st (end_fragments st i r).
Proof. unfold end_fragments. destruct (p_frag st); [|ow]. destruct (set_result _ _); ow. Qed.
Lemma raise_fragments_ow st e : ow st (raise_fragments X cfg st i e).
Proof.
  unfold raise_fragments.
  destruct (fail_connection X cfg st 1011) as [st2 e2] eqn:F. apply fail_ow in F.
  destruct e; try (eapply ow_trans; [exact F|apply end_fragments_ow]).
  apply end_fragments_ow.
Qed.
Lemma send_item_ow st op rest d : ow st (send_item X cfg st i op rest d).
Proof.
  unfold send_item. destruct (prepare_data d) as [[op' data]|e]; [|apply raise_fragments_ow].
  destruct (negb _); [apply raise_fragments_ow|].
  destruct (write_frame _ _ _ _ _ _ _ _) as [st2 e] eqn:W. written W. destruct e.
  - eapply ow_trans; [|apply raise_fragments_ow]. ow.
  - ow.
Qed.
Lemma send_last_ow st : ow st (send_last X cfg st i).
Proof.
  unfold send_last.
  destruct (write_frame _ _ _ _ _ _ _ _) as [st2 e] eqn:W. written W. destruct e.
  - eapply ow_trans; [|apply raise_fragments_ow]. ow.
  - ow.
Qed.
Lemma send_next_ow st op src : ow st (send_next X cfg st i op src).
Proof.
  destruct src as [[|d items] [e|]|]; cbn [send_next];
    [apply raise_fragments_ow|apply send_last_ow|apply send_item_ow|apply send_item_ow|ow].
Qed.
Lemma send_first_ow st rest d : ow st (send_first X cfg st i rest d).
Proof.
  unfold send_first. destruct (prepare_data d) as [[op data]|e]; [|ow].
  destruct (write_frame _ _ _ _ _ _ _ _) as [st2 e] eqn:W. written W. destruct e.
  - eapply ow_trans; [|apply raise_fragments_ow]. ow.
  - ow.
Qed.
Lemma send_loop_ow st m : ow st (send_loop X cfg st i m).
Proof.
  unfold send_loop. destruct (p_frag st); [ow|].
  destruct m as [d| |[|d items] [e|]| |]; try (ow; fail); try apply send_first_ow.
  destruct (prepare_data d) as [[op data]|e]; [|ow].
  destruct (write_frame _ _ _ _ _ _ _ _) as [st2 e] eqn:W. written W. destruct e; ow.
Qed.
Lemma close_wait_T_ow st t0 : ow st (close_wait_T cfg st i t0).
Proof. unfold close_wait_T. destruct (T_exists st); ow. Qed.
Lemma close_timed_out_ow st t0 : ow st (close_timed_out X cfg st i t0).
Proof.
  unfold close_timed_out. destruct (fail_connection _ _ _ _) as [st2 e2] eqn:F. apply fail_ow in F.
  eapply ow_trans; [exact F|apply close_wait_T_ow].
Qed.
Lemma close_start_ow st code reason : ow st (close_start X cfg st i code reason).
Proof.
  unfold close_start. destruct (serialize_close _ _); [|ow].
  assert (G : ow st
     match write_close_frame X cfg st (ByCall i) a with
     | (st2, Some (Some e)) => raise_ i (PyExn e) st2
     | (st2, Some None) => set_user i (UCloseWrite (deadline st2 (c_close_timeout cfg)) (p_now st2)) st2
     | (st2, None) => close_wait_T cfg st2 i (p_now st2)
     end).
  { destruct (write_close_frame _ _ _ _ _) as [st2 r] eqn:W. written W.
    destruct r as [[e|]|]; [ow|ow|]. eapply ow_trans; [|apply close_wait_T_ow]. ow. }
  destruct (c_close_timeout cfg) as [[|q]|]; [apply close_timed_out_ow|exact G|exact G].
Qed.
Lemma cancel_call_ow st pc : ow st (cancel_call X cfg st i pc).
Proof.
  unfold cancel_call. destruct pc; try (ow; fail); try apply raise_fragments_ow.
  - destruct op; [apply raise_fragments_ow|ow].
  - eapply ow_trans; [apply cancel_T_ow|ow].
Qed.

Ltac some_ow H := apply some_inj in H as <-.

Lemma start_call_ow st c a st' : start_call X cfg st i c a = Some st' -> ow st st'.
Proof.
  unfold start_call. intros H. destruct c; destruct a; try discriminate; try some_ow H.
  - destruct (p_pop st); [ow|apply recv_loop_ow].
  - destruct (ensure_open st); [apply send_loop_ow|ow|ow].
  - apply close_start_ow.
  - destruct (ensure_open st); [|some_ow H; ow|some_ow H; ow]. destruct data as [d|].
    + destruct (prepare_ctrl d); [|some_ow H; ow].
      destruct (has_ping _ _); [some_ow H; ow|].
      destruct (start_ping _ _ _ _ _) as [st2 e] eqn:W. written W. destruct e; some_ow H; ow.
    + destruct (random_ok _ _); [|discriminate].
      destruct (start_ping _ _ _ _ _) as [st2 e] eqn:W. written W. destruct e; some_ow H; ow.
  - destruct (ensure_open st); [|ow|ow]. destruct (prepare_ctrl data); [|ow].
    destruct (write_frame _ _ _ _ _ _ _ _) as [st2 e] eqn:W. written W. destruct e; ow.
  - ow.
Qed.

Lemma step_call_ow st pc a st' : step_call X cfg st i pc a = Some st' -> ow st st'.
Proof.
  assert (D : forall (k1 : conn E -> conn E) (k2 : conn E -> pexn -> conn E) (k3 : conn E -> conn E),
    (forall s, ow s (k1 s)) -> (forall s e, ow s (k2 s e)) -> (forall s, ow s (k3 s)) ->
    match after_drain X cfg st a with
    | Some (s2, EOk) => Some (k1 s2)
    | Some (s2, ERaise e) => Some (k2 s2 e)
    | Some (s2, EWait) => Some (k3 s2)
    | None => None
    end = Some st' -> ow st st').
  { intros k1 k2 k3 H1 H2 H3 H. destruct (after_drain _ _ _ _) as [[s2 r]|] eqn:Q; [|discriminate].
    apply after_drain_ow in Q.
    destruct r; some_ow H; (eapply ow_trans; [exact Q|first [apply H1|apply H2|apply H3]]). }
  unfold step_call. intros H. destruct pc.
  - eapply start_call_ow; eassumption.
  - destruct a; try discriminate. destruct (_ || _); [|discriminate]. some_ow H. apply recv_resume_ow.
  - destruct a; try discriminate. destruct (fut_done _); [|discriminate]. some_ow H. apply send_loop_ow.
  - destruct a; try discriminate. destruct (ensure_open_end st); [|discriminate]. some_ow H. ow.
  - eapply (D (fun s => return_ i RNone s) (fun s e => raise_ i e s) (fun s => set_user i UEnsure s));
      [ow|ow|ow|exact H].
  - eapply (D (fun s => send_next X cfg s i op rest) (fun s e => raise_fragments X cfg s i e)
             (fun s => set_user i UFragEnsure s));
      [intros; apply send_next_ow|intros; apply raise_fragments_ow|ow|exact H].
  - eapply (D (fun s => end_fragments s i RNone) (fun s e => raise_fragments X cfg s i e)
             (fun s => set_user i UFragEnsure s));
      [intros; apply end_fragments_ow|intros; apply raise_fragments_ow|ow|exact H].
  - destruct a; try discriminate. destruct (ensure_open_end st); [|discriminate]. some_ow H.
    apply raise_fragments_ow.
  - destruct op; destruct a as [| | | | |[]]; try discriminate; some_ow H;
      first [apply send_item_ow|apply send_last_ow|apply raise_fragments_ow
            |apply send_first_ow|ow].
  - eapply (D (fun s => match find_ping s data with
                        | Some w => return_ i (RPing w) s
                        | None => raise_ i (PyExn KeyError) s end) (fun s e => raise_ i e s)
              (fun s => set_user i UEnsure s)); [intros; destruct (find_ping s data); ow|ow|ow|exact H].
  - assert (G : match after_drain X cfg st a with
                | Some (st, EOk) => Some (close_wait_T cfg st i t0)
                | Some (st, ERaise e) => Some (raise_ i e st)
                | Some (st, EWait) => Some (set_user i (UCloseEnsure d t0) st)
                | None => None
                end = Some st' -> ow st st').
    { apply (D (fun s => close_wait_T cfg s i t0) (fun s e => raise_ i e s)
             (fun s => set_user i (UCloseEnsure d t0) s)); [intros; apply close_wait_T_ow|ow|ow]. }
    destruct a; try (now apply G). destruct (expired st d); [|discriminate]. some_ow H.
    apply close_timed_out_ow.
  - destruct a; try discriminate.
    + destruct (ensure_open_end st); [|discriminate]. some_ow H. ow.
    + destruct (expired st d); [|discriminate]. some_ow H. apply close_timed_out_ow.
  - destruct a; try discriminate.
    + destruct (p_T st) as [| | | | | | |[e|]] eqn:HT; try discriminate; some_ow H; ow.
    + destruct (expired st d); [|discriminate]. some_ow H.
      eapply ow_trans; [apply cancel_T_ow|ow].
  - destruct a; try discriminate. destruct (T_done st); [|discriminate]. some_ow H. ow.
  - destruct a; try discriminate.
    destruct (p_C st) as [| | | | | | |[e|]]; try discriminate; some_ow H; ow.
  - destruct a; try discriminate. destruct (is_lost st); [|discriminate]. some_ow H. ow.
  - discriminate.
Qed.
Lemma step_user_ow st a st' : step_user X cfg st i a = Some st' -> ow st st'.
Proof.
  unfold step_user. destruct (nth_error _ _) as [[pc c]|]; [|discriminate].
  assert (G : step_call X cfg st i pc a = Some st' -> ow st st') by apply step_call_ow.
  assert (G' : match a with Go => Some (cancel_call X cfg st i pc) | _ => None end = Some st' ->
               ow st st').
  { destruct a; try discriminate. intros H'. apply some_inj in H' as <-. apply cancel_call_ow. }
  destruct c; destruct pc; try discriminate; auto.
Qed.

End Call.
Lemma T_raise_ow st e : ow st (T_raise X cfg st e).
Proof.
  unfold T_raise.
  assert (G : forall code, ow st (let '(st2, e') := fail_connection X cfg st code in set_T (TDone e') st2)).
  { intros code. destruct (fail_connection _ _ _ _) as [st2 e2] eqn:F. apply fail_ow in F.
    eapply ow_trans; [exact F|]. ow. }
  destruct e; try apply G. ow.
Qed.
Lemma after_close_ow st c : ow st (after_close X cfg st c).
Proof. unfold after_close. destruct c; try apply T_raise_ow. ow. Qed.
Lemma put_message_ow st m : ow st (put_message X cfg st m).
Proof.
  unfold put_message. destruct (room cfg st); [|ow].
  destruct (p_pop _); [|ow]. destruct (set_result _ _); [ow|].
  eapply ow_trans; [|apply T_raise_ow]. ow.
Qed.
Lemma step_T_ow st a st' : step_T X cfg st a = Some st' -> ow st st'.
Proof.
  intros H. unfold step_T in H.
  destruct (p_T st) as [|c|c|c|c|c|m w|e] eqn:HT; try discriminate; (destruct (p_Tcancel st);
    [destruct a; try discriminate; apply some_inj in H as <-; eapply ow_trans; [|apply T_raise_ow]; ow|]).
  - destruct a; try discriminate. unfold read_frame in H.
    assert (G : match run (legacy_read X (negb (c_client cfg)) (read_limit cfg c)) (p_reader st) (p_exts st) with
        | OSusp _ _ _ => None
        | OFail e r exts => Some (T_raise X cfg (set_reader r (set_exts exts st)) (PyExn e))
        | ODone f r exts =>
          let st := set_in (p_in st ++ [f]) (set_reader r (set_exts exts st)) in
          Some (on_frame X cfg st c f)
        end = Some st' -> ow st st').
    { clear H. destruct (run _ _ _) as [? ? ?|f r ex|e r ex] eqn:Run; cbv zeta; try discriminate; intros H;
        apply some_inj in H as <-; [|eapply ow_trans; [|apply T_raise_ow]; ow].
      set (st1 := set_in _ _).
      apply (ow_trans _ st1); [ow|]. clearbody st1. clear Run HT.
      unfold on_frame.
      assert (D : ow st1 match read_message cfg c f with
             | RMsg m => put_message X cfg st1 m
             | RNext c => set_T (TRead c) st1
             | RExn e => T_raise X cfg st1 (PyExn e)
             end)
        by (destruct (read_message cfg c f); [apply put_message_ow|ow|apply T_raise_ow]).
      destruct (f_opcode f); try exact D.
      - destruct (parse_close _) as [k|]; [|apply T_raise_ow].
        apply (ow_trans _ (set_close (Some k) st1)); [ow|].
        destruct (write_close_frame _ _ _ _ _) as [st2 [[?|]|]] eqn:Wc; (apply write_close_frame_ow in Wc; [|discriminate]);
          (eapply ow_trans; [exact Wc|]); [apply T_raise_ow|ow|apply after_close_ow].
      - destruct (ensure_open _); [|apply T_raise_ow|ow].
        destruct (write_frame _ _ _ _ _ _ _ _) as [st2 [?|]] eqn:Wf; (apply write_frame_ow in Wf; [|discriminate]);
          (eapply ow_trans; [exact Wf|]); [apply T_raise_ow|ow].
      - destruct (receive_pong_shape st1 (f_data f)) as (? & ? & ->). ow. }
    destruct (p_lost st) as [[o|]|] eqn:L; [|now apply G|now apply G].
    apply some_inj in H as <-. apply T_raise_ow.
  - destruct (after_drain X cfg st a) as [[st2 r]|] eqn:D; [|discriminate]. apply after_drain_ow in D.
    eapply ow_trans; [exact D|].
    destruct r; apply some_inj in H as <-; [ow|apply T_raise_ow|ow].
  - destruct a; try discriminate. destruct (ensure_open_end st); [|discriminate].
    apply some_inj in H as <-. apply T_raise_ow.
  - destruct (after_drain X cfg st a) as [[st2 r]|] eqn:D; [|discriminate]. apply after_drain_ow in D.
    eapply ow_trans; [exact D|].
    destruct r; apply some_inj in H as <-; [apply after_close_ow|
      destruct (is_closed_exn e); [apply after_close_ow|apply T_raise_ow]|ow].
  - destruct a; try discriminate. destruct (ensure_open_end st); [|discriminate].
    apply some_inj in H as <-. destruct (is_closed_exn p); [apply after_close_ow|apply T_raise_ow].
  - destruct a; try discriminate. destruct (fut_done _); [|discriminate]. apply some_inj in H as <-.
    eapply ow_trans; [|apply put_message_ow]. ow.
Qed.
Lemma step_K_ow st a st' : step_K X cfg st a = Some st' -> ow st st'.
Proof.
  intros H. unfold step_K in H.
  destruct (p_K st); try discriminate; (destruct (p_Kcancel st);
    [destruct a; try discriminate; apply some_inj in H as <-; ow|]).
  - destruct a; try discriminate. destruct (c_ping_interval cfg); apply some_inj in H as <-; ow.
  - destruct a; try discriminate. destruct (_ <=? _); [|discriminate].
    destruct (ensure_open st); [|apply some_inj in H as <-; ow|apply some_inj in H as <-; ow].
    destruct (random_ok _ _); [|discriminate].
    destruct (start_ping _ _ _ _ _) as [st2 e2] eqn:Q. apply start_ping_ow in Q; [|discriminate].
    destruct e2; apply some_inj in H as <-; (eapply ow_trans; [exact Q|]; ow).
  - destruct (after_drain X cfg st a) as [[st2 r]|] eqn:D; [|discriminate]. apply after_drain_ow in D.
    eapply ow_trans; [exact D|]. destruct r; apply some_inj in H as <-; try (ow; fail).
    unfold after_ping. destruct (find_ping _ _); [|ow].
    destruct (c_ping_timeout cfg); [|ow]. try destruct (_ =? _); ow.
  - destruct a; try discriminate. destruct (ensure_open_end st); [|discriminate].
    apply some_inj in H as <-. ow.
  - destruct a; try discriminate.
    + destruct (get_fut _ _); try discriminate; apply some_inj in H as <-; ow.
    + destruct (_ <=? _); [|discriminate].
      destruct (fail_connection _ _ _ _) as [st2 e2] eqn:F. apply fail_ow in F. apply some_inj in H as <-.
      eapply ow_trans; [exact F|]. ow.
Qed.



End Other.
End Writers.
