(* Pings are answered: which pongs transfer_data writes. *)
From Verif Require Import Base.Prelude Base.PreludeFacts Model.Streams Model.Frames
  Model.LegacyFraming Model.LegacyProtocol Spec.Asyncio
  Proofs.LegacyPrims Proofs.LegacyShapes Proofs.LegacyUsers Proofs.LegacyFields Proofs.LegacyClose Proofs.LegacyQueue
  Proofs.LegacyMessages Proofs.LegacyFragments Proofs.LegacyTiming Proofs.LegacyKeepalive.
Local Open Scope N_scope.

Section Answers.
Context {E : Type} (X : ext_ops E) (cfg : config).
Implicit Type st : conn E.

(* transfer_data writes no pong *)
Definition ow st st' : Prop := pongs_sent st' = pongs_sent st.

Lemma ow_refl st : ow st st.
Proof. reflexivity. Qed.
Lemma ow_trans st st1 st2 : ow st st1 -> ow st1 st2 -> ow st st2.
Proof. unfold ow. congruence. Qed.
Ltac ow := intros; first [reflexivity|eassumption].

Lemma opcode_eqb_refl op : opcode_eqb op op = true.
Proof. now destruct op. Qed.
Lemma pongs_sent_app st x : pongs_sent (set_out (p_out st ++ [x]) st) =
  pongs_sent st ++ (if writer_eq_dec (o_by x) ByTransfer then
                      if opcode_eqb (f_opcode (o_frame x)) PONG then [f_data (o_frame x)] else [] else []).
Proof.
  unfold pongs_sent, written_by. cbn [p_out set_out]. rewrite filter_app, map_app, filter_app, map_app. f_equal.
  cbn [filter]. destruct (writer_eq_dec (o_by x) ByTransfer); [|reflexivity]. cbn [map filter].
  now destruct (opcode_eqb _ _).
Qed.
Lemma write_pongs st by_ f st' : write X cfg st by_ f = (st', None) ->
  pongs_sent st' = pongs_sent st ++ (if writer_eq_dec by_ ByTransfer then
                      if opcode_eqb (f_opcode f) PONG then [f_data f] else [] else []).
Proof.
  unfold write. destruct (serialize _ _ _ _ _) as [exts r]. intros H.
  destruct r; [|discriminate]. apply pair_equal_spec in H as [<- _].
  apply (pongs_sent_app (set_exts exts st)).
Qed.
Lemma write_raises st by_ f st' e : write X cfg st by_ f = (st', Some e) -> ow st st'.
Proof.
  unfold write. destruct (serialize _ _ _ _ _) as [exts r]. intros H.
  destruct r; [discriminate|]. apply pair_equal_spec in H as [<- _]. reflexivity.
Qed.
Lemma write_ow st by_ f st' e : by_ <> ByTransfer \/ f_opcode f <> PONG -> write X cfg st by_ f = (st', e) -> ow st st'.
Proof.
  intros N H. destruct e as [e|]; [eapply write_raises; eauto|]. apply write_pongs in H. unfold ow. rewrite H.
  destruct (writer_eq_dec _ _) as [Q|_]; [|apply app_nil_r]. destruct N as [N|N]; [contradiction|].
  destruct (f_opcode f); try apply app_nil_r. congruence.
Qed.
Lemma write_frame_ow st by_ fin op data expected st' e : by_ <> ByTransfer \/ op <> PONG ->
  write_frame X cfg st by_ fin op data expected = (st', e) -> ow st st'.
Proof.
  intros N. unfold write_frame. destruct (negb _); [|now apply write_ow]. intros H.
  apply pair_equal_spec in H as [<- _]. reflexivity.
Qed.
Lemma write_close_frame_ow st by_ data st' e : True ->
  write_close_frame X cfg st by_ data = (st', e) -> ow st st'.
Proof.
  intros N. unfold write_close_frame. destruct (is_open _).
  - destruct (write_frame _ _ _ _ _ _ _ _) as [st2 e2] eqn:W. intros H. apply pair_equal_spec in H as [<- _].
    apply write_frame_ow in W; [exact W|]. right. discriminate.
  - intros H. apply pair_equal_spec in H as [<- _]. reflexivity.
Qed.
Lemma start_ping_ow st by_ data st' e : True -> start_ping X cfg st by_ data = (st', e) -> ow st st'.
Proof. intros N. unfold start_ping. cbv zeta. intros H. apply write_frame_ow in H; [exact H|]. right. discriminate. Qed.
Ltac written W := first [apply write_frame_ow in W; [|left; discriminate]|apply write_close_frame_ow in W; [|exact Logic.I]
  |apply start_ping_ow in W; [|exact Logic.I]].

Lemma cancel_T_ow st : ow st (cancel_T st).
Proof. unfold cancel_T. destruct (_ && _); reflexivity. Qed.
Lemma fail_ow st code st' e : fail_connection X cfg st code = (st', e) -> ow st st'.
Proof.
  unfold fail_connection. intros H. eapply ow_trans; [apply cancel_T_ow|].
  revert H. generalize (cancel_T st). clear st. intros st.
  assert (G : forall st2 e2,
    (if negb (code =? 1006)%Z && is_open (p_state st)
     then match serialize_close code [] with
          | Raise e => (st, Some e)
          | Ok data => write X cfg (set_state Closing st) ByFailure (mkframe true CLOSE data)
          end
     else (st, None)) = (st2, e2) -> ow st st2).
  { intros st2 e2. destruct (_ && _); [|intros Q; apply pair_equal_spec in Q as [<- _]; apply ow_refl].
    destruct (serialize_close _ _); [|intros Q; apply pair_equal_spec in Q as [<- _]; apply ow_refl].
    intros Q. apply write_ow in Q; [exact Q|left; discriminate]. }
  destruct (if _ && _ then _ else _) as [st2 e2] eqn:Q. intros H. eapply ow_trans; [exact (G _ _ eq_refl)|].
  destruct e2; apply pair_equal_spec in H as [<- _]; [apply ow_refl|].
  destruct (p_C st2) eqn:HC; reflexivity.
Qed.
Lemma after_drain_ow st a st' r : after_drain X cfg st a = Some (st', r) -> ow st st'.
Proof.
  unfold after_drain. destruct a; try discriminate.
  - intros H. apply some_inj, pair_equal_spec in H as [<- _]. apply ow_refl.
  - destruct (p_lost st) as [l|]; [|discriminate].
    assert (G : (let '(st2, _) := fail_connection X cfg st 1006 in Some (st2, ensure_open st2)) = Some (st', r) -> ow st st').
    { destruct (fail_connection _ _ _ _) as [st2 e2] eqn:F. intros H.
      apply some_inj, pair_equal_spec in H as [<- _]. now apply fail_ow in F. }
    destruct l as [[]|]; destruct o; try discriminate; try exact G;
      intros H; apply some_inj, pair_equal_spec in H as [<- _]; apply ow_refl.
Qed.


Section Call.
Variable i : nat.
Lemma recv_loop_ow st : ow st (recv_loop st i).
Proof.
  unfold recv_loop. destruct (p_messages st).
  - destruct (T_exists _); ow.
  - change (p_put (set_messages l st)) with (p_put st). destruct (p_put st); [|ow].
    destruct (set_result _ _); ow.
Qed.
Lemma recv_resume_ow st w : ow st (recv_resume cfg st i w).
Proof.
  unfold recv_resume. destruct (fut_done _).
  - eapply ow_trans; [|apply recv_loop_ow]. ow.
  - destruct (c_legacy_recv cfg); [ow|]. destruct (ensure_open _); [|ow|ow].
    eapply ow_trans; [|apply recv_loop_ow]. ow.
Qed.
Lemma end_fragments_ow st r : ow st (end_fragments st i r).
Proof. unfold end_fragments. destruct (p_frag st); [|ow]. destruct (set_result _ _); ow. Qed.
Lemma raise_fragments_ow st e : ow st (raise_fragments X cfg st i e).
Proof.
  unfold raise_fragments.
  destruct (fail_connection X cfg st 1011) as [st2 e2] eqn:F. apply fail_ow in F.
  destruct e; try (eapply ow_trans; [exact F|apply end_fragments_ow]).
  apply end_fragments_ow.
Qed.
Lemma send_item_ow st op rest d : ow st (send_item X cfg st i op rest d).
Proof.
  unfold send_item. destruct (prepare_data d) as [[op' data]|e]; [|apply raise_fragments_ow].
  destruct (negb _); [apply raise_fragments_ow|].
  destruct (write_frame _ _ _ _ _ _ _ _) as [st2 e] eqn:W. written W. destruct e.
  - eapply ow_trans; [|apply raise_fragments_ow]. ow.
  - ow.
Qed.
Lemma send_last_ow st : ow st (send_last X cfg st i).
Proof.
  unfold send_last.
  destruct (write_frame _ _ _ _ _ _ _ _) as [st2 e] eqn:W. written W. destruct e.
  - eapply ow_trans; [|apply raise_fragments_ow]. ow.
  - ow.
Qed.
Lemma send_next_ow st op src : ow st (send_next X cfg st i op src).
Proof.
  destruct src as [[|d items] [e|]|]; cbn [send_next];
    [apply raise_fragments_ow|apply send_last_ow|apply send_item_ow|apply send_item_ow|ow].
Qed.
Lemma send_first_ow st rest d : ow st (send_first X cfg st i rest d).
Proof.
  unfold send_first. destruct (prepare_data d) as [[op data]|e]; [|ow].
  destruct (write_frame _ _ _ _ _ _ _ _) as [st2 e] eqn:W. written W. destruct e.
  - eapply ow_trans; [|apply raise_fragments_ow]. ow.
  - ow.
Qed.
Lemma send_loop_ow st m : ow st (send_loop X cfg st i m).
Proof.
  unfold send_loop. destruct (p_frag st); [ow|].
  destruct m as [d| |[|d items] [e|]| |]; try (ow; fail); try apply send_first_ow.
  destruct (prepare_data d) as [[op data]|e]; [|ow].
  destruct (write_frame _ _ _ _ _ _ _ _) as [st2 e] eqn:W. written W. destruct e; ow.
Qed.
Lemma close_wait_T_ow st t0 : ow st (close_wait_T cfg st i t0).
Proof. unfold close_wait_T. destruct (T_exists st); ow. Qed.
Lemma close_timed_out_ow st t0 : ow st (close_timed_out X cfg st i t0).
Proof.
  unfold close_timed_out. destruct (fail_connection _ _ _ _) as [st2 e2] eqn:F. apply fail_ow in F.
  eapply ow_trans; [exact F|apply close_wait_T_ow].
Qed.
Lemma close_start_ow st code reason : ow st (close_start X cfg st i code reason).
Proof.
  unfold close_start. destruct (serialize_close _ _); [|ow].
  assert (G : ow st
     match write_close_frame X cfg st (ByCall i) a with
     | (st2, Some (Some e)) => raise_ i (PyExn e) st2
     | (st2, Some None) => set_user i (UCloseWrite (deadline st2 (c_close_timeout cfg)) (p_now st2)) st2
     | (st2, None) => close_wait_T cfg st2 i (p_now st2)
     end).
  { destruct (write_close_frame _ _ _ _ _) as [st2 r] eqn:W. written W.
    destruct r as [[e|]|]; [ow|ow|]. eapply ow_trans; [|apply close_wait_T_ow]. ow. }
  destruct (c_close_timeout cfg) as [[|q]|]; [apply close_timed_out_ow|exact G|exact G].
Qed.
Lemma cancel_call_ow st pc : ow st (cancel_call X cfg st i pc).
Proof.
  unfold cancel_call. destruct pc; try (ow; fail); try apply raise_fragments_ow.
  - destruct op; [apply raise_fragments_ow|ow].
  - eapply ow_trans; [apply cancel_T_ow|ow].
Qed.

Ltac some_ow H := apply some_inj in H as <-.

Lemma start_call_ow st c a st' : start_call X cfg st i c a = Some st' -> ow st st'.
Proof.
  unfold start_call. intros H. destruct c; destruct a; try discriminate; try some_ow H.
  - destruct (p_pop st); [ow|apply recv_loop_ow].
  - destruct (ensure_open st); [apply send_loop_ow|ow|ow].
  - apply close_start_ow.
  - destruct (ensure_open st); [|some_ow H; ow|some_ow H; ow]. destruct data as [d|].
    + destruct (prepare_ctrl d); [|some_ow H; ow].
      destruct (has_ping _ _); [some_ow H; ow|].
      destruct (start_ping _ _ _ _ _) as [st2 e] eqn:W. written W. destruct e; some_ow H; ow.
    + destruct (random_ok _ _); [|discriminate].
      destruct (start_ping _ _ _ _ _) as [st2 e] eqn:W. written W. destruct e; some_ow H; ow.
  - destruct (ensure_open st); [|ow|ow]. destruct (prepare_ctrl data); [|ow].
    destruct (write_frame _ _ _ _ _ _ _ _) as [st2 e] eqn:W. written W. destruct e; ow.
  - ow.
Qed.

Lemma step_call_ow st pc a st' : step_call X cfg st i pc a = Some st' -> ow st st'.
Proof.
  assert (D : forall (k1 : conn E -> conn E) (k2 : conn E -> pexn -> conn E) (k3 : conn E -> conn E),
    (forall s, ow s (k1 s)) -> (forall s e, ow s (k2 s e)) -> (forall s, ow s (k3 s)) ->
    match after_drain X cfg st a with
    | Some (s2, EOk) => Some (k1 s2)
    | Some (s2, ERaise e) => Some (k2 s2 e)
    | Some (s2, EWait) => Some (k3 s2)
    | None => None
    end = Some st' -> ow st st').
  { intros k1 k2 k3 H1 H2 H3 H. destruct (after_drain _ _ _ _) as [[s2 r]|] eqn:Q; [|discriminate].
    apply after_drain_ow in Q.
    destruct r; some_ow H; (eapply ow_trans; [exact Q|first [apply H1|apply H2|apply H3]]). }
  unfold step_call. intros H. destruct pc.
  - eapply start_call_ow; eassumption.
  - destruct a; try discriminate. destruct (_ || _); [|discriminate]. some_ow H. apply recv_resume_ow.
  - destruct a; try discriminate. destruct (fut_done _); [|discriminate]. some_ow H. apply send_loop_ow.
  - destruct a; try discriminate. destruct (ensure_open_end st); [|discriminate]. some_ow H. ow.
  - eapply (D (fun s => return_ i RNone s) (fun s e => raise_ i e s) (fun s => set_user i UEnsure s));
      [ow|ow|ow|exact H].
  - eapply (D (fun s => send_next X cfg s i op rest) (fun s e => raise_fragments X cfg s i e)
             (fun s => set_user i UFragEnsure s));
      [intros; apply send_next_ow|intros; apply raise_fragments_ow|ow|exact H].
  - eapply (D (fun s => end_fragments s i RNone) (fun s e => raise_fragments X cfg s i e)
             (fun s => set_user i UFragEnsure s));
      [intros; apply end_fragments_ow|intros; apply raise_fragments_ow|ow|exact H].
  - destruct a; try discriminate. destruct (ensure_open_end st); [|discriminate]. some_ow H.
    apply raise_fragments_ow.
  - destruct op; destruct a as [| | | | |[]]; try discriminate; some_ow H;
      first [apply send_item_ow|apply send_last_ow|apply raise_fragments_ow
            |apply send_first_ow|ow].
  - eapply (D (fun s => match find_ping s data with
                        | Some w => return_ i (RPing w) s
                        | None => raise_ i (PyExn KeyError) s end) (fun s e => raise_ i e s)
              (fun s => set_user i UEnsure s)); [intros; destruct (find_ping s data); ow|ow|ow|exact H].
  - assert (G : match after_drain X cfg st a with
                | Some (st, EOk) => Some (close_wait_T cfg st i t0)
                | Some (st, ERaise e) => Some (raise_ i e st)
                | Some (st, EWait) => Some (set_user i (UCloseEnsure d t0) st)
                | None => None
                end = Some st' -> ow st st').
    { apply (D (fun s => close_wait_T cfg s i t0) (fun s e => raise_ i e s)
             (fun s => set_user i (UCloseEnsure d t0) s)); [intros; apply close_wait_T_ow|ow|ow]. }
    destruct a; try (now apply G). destruct (expired st d); [|discriminate]. some_ow H.
    apply close_timed_out_ow.
  - destruct a; try discriminate.
    + destruct (ensure_open_end st); [|discriminate]. some_ow H. ow.
    + destruct (expired st d); [|discriminate]. some_ow H. apply close_timed_out_ow.
  - destruct a; try discriminate.
    + destruct (p_T st) as [| | | | | | |[e|]] eqn:HT; try discriminate; some_ow H; ow.
    + destruct (expired st d); [|discriminate]. some_ow H.
      eapply ow_trans; [apply cancel_T_ow|ow].
  - destruct a; try discriminate. destruct (T_done st); [|discriminate]. some_ow H. ow.
  - destruct a; try discriminate.
    destruct (p_C st) as [| | | | | | |[e|]]; try discriminate; some_ow H; ow.
  - destruct a; try discriminate. destruct (is_lost st); [|discriminate]. some_ow H. ow.
  - discriminate.
Qed.
Lemma step_user_ow st a st' : step_user X cfg st i a = Some st' -> ow st st'.
Proof.
  unfold step_user. destruct (nth_error _ _) as [[pc c]|]; [|discriminate].
  assert (G : step_call X cfg st i pc a = Some st' -> ow st st') by apply step_call_ow.
  assert (G' : match a with Go => Some (cancel_call X cfg st i pc) | _ => None end = Some st' ->
               ow st st').
  { destruct a; try discriminate. intros H'. apply some_inj in H' as <-. apply cancel_call_ow. }
  destruct c; destruct pc; try discriminate; auto.
Qed.

End Call.
Lemma T_raise_ow st e : ow st (T_raise X cfg st e).
Proof.
  unfold T_raise.
  assert (G : forall code, ow st (let '(st2, e') := fail_connection X cfg st code in set_T (TDone e') st2)).
  { intros code. destruct (fail_connection _ _ _ _) as [st2 e2] eqn:F. apply fail_ow in F.
    eapply ow_trans; [exact F|]. ow. }
  destruct e; try apply G. ow.
Qed.
Lemma after_close_ow st c : ow st (after_close X cfg st c).
Proof. unfold after_close. destruct c; try apply T_raise_ow. ow. Qed.
Lemma put_message_ow st m : ow st (put_message X cfg st m).
Proof.
  unfold put_message. destruct (room cfg st); [|ow].
  destruct (p_pop _); [|ow]. destruct (set_result _ _); [ow|].
  eapply ow_trans; [|apply T_raise_ow]. ow.
Qed.
Lemma step_K_ow st a st' : step_K X cfg st a = Some st' -> ow st st'.
Proof.
  intros H. unfold step_K in H.
  destruct (p_K st); try discriminate; (destruct (p_Kcancel st);
    [destruct a; try discriminate; apply some_inj in H as <-; ow|]).
  - destruct a; try discriminate. destruct (c_ping_interval cfg); apply some_inj in H as <-; ow.
  - destruct a; try discriminate. destruct (_ <=? _); [|discriminate].
    destruct (ensure_open st); [|apply some_inj in H as <-; ow|apply some_inj in H as <-; ow].
    destruct (random_ok _ _); [|discriminate].
    destruct (start_ping _ _ _ _ _) as [st2 e2] eqn:Q. apply start_ping_ow in Q; [|exact Logic.I].
    destruct e2; apply some_inj in H as <-; (eapply ow_trans; [exact Q|]; ow).
  - destruct (after_drain X cfg st a) as [[st2 r]|] eqn:D; [|discriminate]. apply after_drain_ow in D.
    eapply ow_trans; [exact D|]. destruct r; apply some_inj in H as <-; try (ow; fail).
    unfold after_ping. destruct (find_ping _ _); [|ow].
    destruct (c_ping_timeout cfg); [|ow]. try destruct (_ =? _); ow.
  - destruct a; try discriminate. destruct (ensure_open_end st); [|discriminate].
    apply some_inj in H as <-. ow.
  - destruct a; try discriminate.
    + destruct (get_fut _ _); try discriminate; apply some_inj in H as <-; ow.
    + destruct (_ <=? _); [|discriminate].
      destruct (fail_connection _ _ _ _) as [st2 e2] eqn:F. apply fail_ow in F. apply some_inj in H as <-.
      eapply ow_trans; [exact F|]. ow.
Qed.

Lemma step_C_ow st a st' : step_C cfg st a = Some st' -> ow st st'.
Proof. intros H. apply step_C_shape in H as (? & ? & ? & ? & ? & ->). ow. Qed.
Lemma connection_lost_ow st o c : ow st (connection_lost st o c).
Proof. destruct (connection_lost_shape st o c) as (? & ? & ? & ? & ? & ->). ow. Qed.

(* All pings were answered, except possibly the last one, after which no frame is read *)
Definition stops st : Prop := (exists c, p_T st = TPongEnsure c) \/ T_done st = true.
Definition Answers st : Prop :=
  ((exists c, p_T st = TPongEnsure c) -> p_state st <> Open) /\
  (pings_read st = pongs_sent st \/ exists p, pings_read st = pongs_sent st ++ [p] /\ stops st).
Definition still st st' : Prop := ow st st' /\ p_in st' = p_in st.
Lemma still_refl st : still st st.
Proof. split; reflexivity. Qed.
Lemma still_trans st st1 st2 : still st st1 -> still st1 st2 -> still st st2.
Proof. intros [A B] [C D]. split; [eapply ow_trans; eauto|congruence]. Qed.
Lemma fail_still st code st' e : fail_connection X cfg st code = (st', e) -> still st st'.
Proof.
  intros H. split; [eapply fail_ow; eauto|]. now apply fail_shape in H as (? & ? & ? & ? & ? & ->).
Qed.
Lemma T_raise_still st e : still st (T_raise X cfg st e) /\ T_done (T_raise X cfg st e) = true.
Proof.
  assert (G : forall code, still st (let '(st2, e') := fail_connection X cfg st code in set_T (TDone e') st2) /\
    T_done (let '(st2, e') := fail_connection X cfg st code in set_T (TDone e') st2) = true).
  { intros code. destruct (fail_connection _ _ _ _) as [st2 e2] eqn:F. apply fail_still in F as [F1 F2].
    split; [split; [exact F1|exact F2]|reflexivity]. }
  unfold T_raise. destruct e; try apply G. split; [split; reflexivity|reflexivity].
Qed.
Lemma after_close_still st c : still st (after_close X cfg st c) /\ T_done (after_close X cfg st c) = true.
Proof. unfold after_close. destruct c; try apply T_raise_still. split; [split; reflexivity|reflexivity]. Qed.
Lemma pings_read_eq st st' : p_in st' = p_in st -> pings_read st' = pings_read st.
Proof. unfold pings_read. now intros ->. Qed.
Lemma done_stops st : T_done st = true -> stops st /\ ((exists c, p_T st = TPongEnsure c) -> p_state st <> Open).
Proof.
  intros D. split; [now right|]. intros (c & Q). unfold T_done in D. rewrite Q in D. discriminate.
Qed.
Lemma still_done st st' : Answers st -> still st st' -> T_done st' = true -> Answers st'.
Proof.
  intros (_ & A) [S1 S2] D. destruct (done_stops _ D) as [D1 D2]. split; [exact D2|].
  rewrite (pings_read_eq _ _ S2), S1. destruct A as [A|(p & A & _)]; [now left|right]. now exists p.
Qed.
Lemma read_done st st1 st' p : pings_read st = pongs_sent st -> still st1 st' -> ow st st1 ->
  (pings_read st1 = pings_read st \/ pings_read st1 = pings_read st ++ [p]) -> T_done st' = true -> Answers st'.
Proof.
  intros A [S1 S2] O R D. destruct (done_stops _ D) as [D1 D2]. split; [exact D2|].
  rewrite (pings_read_eq _ _ S2), S1, O, <- A. destruct R as [R|R]; rewrite R; [now left|right]. now exists p.
Qed.
Lemma still_running st st' : pings_read st = pongs_sent st -> still st st' ->
  ((exists c, p_T st' = TPongEnsure c) -> p_state st' <> Open) -> Answers st'.
Proof. intros A [S1 S2] N. split; [exact N|]. left. now rewrite (pings_read_eq _ _ S2), S1. Qed.
Lemma ensure_open_wait st : ensure_open st = EWait -> T_done st = false -> p_state st <> Open.
Proof. unfold ensure_open. intros H D Q. rewrite Q, D in H. discriminate. Qed.
Lemma put_message_Answers st m : pings_read st = pongs_sent st -> Answers (put_message X cfg st m).
Proof.
  intros A. unfold put_message.
  assert (R : forall st', still st st' -> (forall c, p_T st' <> TPongEnsure c) -> Answers st').
  { intros st' S0 N. apply (still_running st); auto. intros (c & Q). destruct (N c Q). }
  destruct (room cfg st); [|apply R; [split; reflexivity|discriminate]].
  destruct (p_pop _); [|apply R; [split; reflexivity|discriminate]].
  destruct (set_result _ _); [apply R; [split; reflexivity|discriminate]|].
  destruct (T_raise_still (set_messages (p_messages st ++ [m]) st) InvalidStateError) as [S0 D].
  apply (read_done st (set_messages (p_messages st ++ [m]) st) _ []); auto. reflexivity.
Qed.

Lemma step_T_Answers st a st' : Answers st -> step_T X cfg st a = Some st' -> Answers st'.
Proof.
  intros A H. pose proof A as (A0 & A1). unfold step_T in H.
  destruct (p_T st) as [|c|c|c|c|c|m w|e] eqn:HT; try discriminate; (destruct (p_Tcancel st);
    [destruct a; try discriminate; apply some_inj in H as <-; apply (still_done st); [exact A|split; reflexivity|reflexivity]|]).
  - (* a frame is read *)
    assert (Eq : pings_read st = pongs_sent st).
    { destruct A1 as [A1|(p & _ & [(c' & Q)|Q])]; [exact A1|congruence|]. unfold T_done in Q. rewrite HT in Q. discriminate. }
    destruct a; try discriminate. unfold read_frame in H.
    assert (G : match run (legacy_read X (negb (c_client cfg)) (read_limit cfg c)) (p_reader st) (p_exts st) with
        | OSusp _ _ _ => None
        | OFail e r exts => Some (T_raise X cfg (set_reader r (set_exts exts st)) (PyExn e))
        | ODone f r exts =>
          let st := set_in (p_in st ++ [f]) (set_reader r (set_exts exts st)) in
          Some (on_frame X cfg st c f)
        end = Some st' -> Answers st').
    { clear H. destruct (run _ _ _) as [? ? ?|f r ex|e r ex] eqn:Run; cbv zeta; try discriminate; intros H;
        apply some_inj in H as <-;
        [|destruct (T_raise_still (set_reader r (set_exts ex st)) (PyExn e)) as [S0 D];
          apply (read_done st (set_reader r (set_exts ex st)) _ []); auto; reflexivity].
      set (st1 := set_in _ _).
      assert (O1 : ow st st1) by reflexivity.
      assert (T1 : T_done st1 = false) by (unfold T_done; change (p_T st1) with (p_T st); now rewrite HT).
      assert (R1 : pings_read st1 = pings_read st ++ (if opcode_eqb (f_opcode f) PING then [f_data f] else [])).
      { unfold pings_read, st1. cbn [p_in set_in]. rewrite filter_app, map_app. f_equal. cbn [filter].
        now destruct (opcode_eqb _ _). }
      clearbody st1. clear Run HT A A0 A1.
      assert (Dn : forall s', still st1 s' -> T_done s' = true -> Answers s').
      { intros s' S0 D. apply (read_done st st1 s' (f_data f)); auto. rewrite R1.
        destruct (opcode_eqb _ _); [now right|left; apply app_nil_r]. }
      assert (Rn : f_opcode f <> PING -> forall s', still st1 s' -> (forall c, p_T s' <> TPongEnsure c) -> Answers s').
      { intros Np s' S0 N. assert (Q : pings_read st1 = pongs_sent st1).
        { rewrite R1, O1. destruct (f_opcode f); try (cbn [opcode_eqb]; rewrite app_nil_r; exact Eq). congruence. }
        apply (still_running st1); auto. intros (c' & Q'). destruct (N c' Q'). }
      unfold on_frame.
      assert (D : f_opcode f <> PING -> Answers match read_message cfg c f with
             | RMsg m => put_message X cfg st1 m
             | RNext c => set_T (TRead c) st1
             | RExn e => T_raise X cfg st1 (PyExn e)
             end).
      { intros Np. destruct (read_message cfg c f).
        - apply put_message_Answers. rewrite R1, O1.
          destruct (f_opcode f); try (cbn [opcode_eqb]; rewrite app_nil_r; exact Eq). congruence.
        - apply Rn; [exact Np|split; reflexivity|discriminate].
        - destruct (T_raise_still st1 (PyExn e)) as [S0 Dd]. auto. }
      destruct (f_opcode f) eqn:Hf; try (apply D; discriminate).
      - destruct (parse_close _) as [k|]; [|destruct (T_raise_still st1 (PyExn e)) as [S0 Dd]; auto].
        assert (S1 : still st1 (set_close (Some k) st1)) by (split; reflexivity).
        destruct (write_close_frame _ _ _ _ _) as [st2 [[e|]|]] eqn:Wc;
          (assert (S2 : still st1 st2) by (eapply still_trans; [exact S1|]; split;
             [eapply write_close_frame_ow; [exact Logic.I|exact Wc]|
              now apply write_close_frame_shape in Wc as (? & ? & ? & ->)])).
        + destruct (T_raise_still st2 (PyExn e)) as [S0 Dd]. apply Dn; [eapply still_trans; eauto|exact Dd].
        + apply Rn; [discriminate|exact S2|discriminate].
        + destruct (after_close_still st2 c) as [S0 Dd]. apply Dn; [eapply still_trans; eauto|exact Dd].
      - destruct (ensure_open st1) eqn:En.
        + destruct (write_frame _ _ _ _ _ _ _ _) as [st2 [e|]] eqn:Wf.
          * assert (S2 : still st1 st2).
            { split; [|now apply write_frame_shape in Wf as (? & ? & ->)].
              unfold write_frame in Wf. destruct (negb _); [apply pair_equal_spec in Wf as [<- _]; reflexivity|].
              eapply write_raises; eauto. }
            destruct (T_raise_still st2 (PyExn e)) as [S0 Dd]. apply Dn; [eapply still_trans; eauto|exact Dd].
          * assert (I2 : p_in st2 = p_in st1) by (now apply write_frame_shape in Wf as (? & ? & ->)).
            unfold write_frame in Wf. destruct (negb _); [discriminate|]. apply write_pongs in Wf.
            cbn [opcode_eqb f_opcode f_data mkframe] in Wf. destruct (writer_eq_dec ByTransfer ByTransfer); [|contradiction].
            split; [intros (c' & Q); discriminate|left].
            change (pings_read (set_T (TPongDrain c) st2)) with (pings_read st2).
            change (pongs_sent (set_T (TPongDrain c) st2)) with (pongs_sent st2).
            rewrite (pings_read_eq _ _ I2), Wf, R1, O1, Eq. reflexivity.
        + destruct (T_raise_still st1 e) as [S0 Dd]. auto.
        + split; [intros _; exact (ensure_open_wait _ En T1)|right]. exists (f_data f). split; [|left; now exists c].
          change (pings_read (set_T (TPongEnsure c) st1)) with (pings_read st1).
          change (pongs_sent (set_T (TPongEnsure c) st1)) with (pongs_sent st1). rewrite R1, O1, Eq. reflexivity.
      - apply Rn; [discriminate| |destruct (receive_pong_shape st1 (f_data f)) as (? & ? & ->); discriminate].
        destruct (receive_pong_shape st1 (f_data f)) as (? & ? & ->). split; reflexivity. }
    destruct (p_lost st) as [[o|]|] eqn:L; [|now apply G|now apply G].
    apply some_inj in H as <-. destruct (T_raise_still st (OsError o)) as [S0 D]. now apply (still_done st).
  - assert (Eq : pings_read st = pongs_sent st).
    { destruct A1 as [A1|(p & _ & [(c' & Q)|Q])]; [exact A1|congruence|]. unfold T_done in Q. rewrite HT in Q. discriminate. }
    destruct (after_drain X cfg st a) as [[st2 r]|] eqn:D; [|discriminate].
    assert (S2 : still st st2 /\ p_T st2 = p_T st /\ (r = EWait -> ensure_open st2 = EWait)).
    { split; [split; [eapply after_drain_ow; eauto|now apply after_drain_shape in D as (? & ? & ? & ? & ? & ->)]|].
      split; [now apply after_drain_shape in D as (? & ? & ? & ? & ? & ->)|]. intros ->.
      unfold after_drain in D. destruct a; try discriminate. destruct (p_lost st) as [l|]; [|discriminate].
      destruct (fail_connection X cfg st 1006) as [s3 e3]. destruct o, l as [[]|]; try discriminate;
        apply some_inj, pair_equal_spec in D as [<- D]; congruence. }
    destruct S2 as (S2 & T2 & E2).
    destruct r; apply some_inj in H as <-.
    + apply (still_running st); [exact Eq|exact S2|]. intros (c' & Q). discriminate.
    + destruct (T_raise_still st2 e) as [S0 Dd]. apply (still_done st); [exact A|eapply still_trans; eauto|exact Dd].
    + apply (still_running st); [exact Eq|exact S2|]. intros _. apply (ensure_open_wait st2 (E2 eq_refl)).
      unfold T_done. now rewrite T2, HT.
  - destruct a; try discriminate. destruct (ensure_open_end st) as [e|]; [|discriminate].
    apply some_inj in H as <-. destruct (T_raise_still st e) as [S0 D]. now apply (still_done st).
  - assert (Eq : pings_read st = pongs_sent st).
    { destruct A1 as [A1|(p & _ & [(c' & Q)|Q])]; [exact A1|congruence|]. unfold T_done in Q. rewrite HT in Q. discriminate. }
    destruct (after_drain X cfg st a) as [[st2 r]|] eqn:D; [|discriminate].
    assert (S2 : still st st2).
    { split; [eapply after_drain_ow; eauto|now apply after_drain_shape in D as (? & ? & ? & ? & ? & ->)]. }
    destruct r; apply some_inj in H as <-.
    + destruct (after_close_still st2 c) as [S0 Dd]. apply (still_done st); [exact A|eapply still_trans; eauto|exact Dd].
    + destruct (is_closed_exn e); [destruct (after_close_still st2 c) as [S0 Dd]|destruct (T_raise_still st2 e) as [S0 Dd]];
        (apply (still_done st); [exact A|eapply still_trans; eauto|exact Dd]).
    + apply (still_running st); [exact Eq|exact S2|]. intros (c' & Q). discriminate.
  - destruct a; try discriminate. destruct (ensure_open_end st) as [e|]; [|discriminate].
    apply some_inj in H as <-. destruct (is_closed_exn e).
    + destruct (after_close_still st c) as [S0 Dd]. now apply (still_done st).
    + destruct (T_raise_still st e) as [S0 Dd]. now apply (still_done st).
  - assert (Eq : pings_read st = pongs_sent st).
    { destruct A1 as [A1|(p & _ & [(c' & Q)|Q])]; [exact A1|congruence|]. unfold T_done in Q. rewrite HT in Q. discriminate. }
    destruct a; try discriminate. destruct (fut_done _); [|discriminate]. apply some_inj in H as <-.
    apply put_message_Answers. exact Eq.
Qed.

(* Steps other than those of transfer_data *)
Lemma step_other_ow st l st' : step X cfg st l = Some st' -> (forall a, l <> LT a) -> still st st'.
Proof.
  intros H N. split.
  - destruct l; cbn [step] in H; try (now destruct (N a)).
    + destruct (p_state st); try discriminate. destruct (p_C st); try discriminate. apply some_inj in H as <-. ow.
    + destruct (fail_connection _ _ _ _) as [st2 e2] eqn:F. apply some_inj in H as <-. now apply fail_ow in F.
    + destruct (r_eof _); [discriminate|]. apply some_inj in H as <-. ow.
    + destruct (r_eof _); [discriminate|]. apply some_inj in H as <-. ow.
    + destruct (p_state st); try discriminate; apply some_inj in H as <-; apply connection_lost_ow.
    + apply some_inj in H as <-. ow.
    + apply some_inj in H as <-. ow.
    + apply some_inj in H as <-. ow.
    + destruct (nth_error _ _) as [[[] ?]|]; try discriminate; apply some_inj in H as <-; ow.
    + now apply step_K_ow in H.
    + now apply step_C_ow in H.
    + now apply step_user_ow in H.
  - destruct (in_step X cfg _ _ _ H) as [Q|(f & Q)]; [exact Q|exfalso].
    apply (step_reach X cfg True) in H; [|auto]. destruct H as [st2 R|c f' st1 st2 Rd _ _ _ _ _].
    + apply reach_in in R. rewrite R in Q. apply (f_equal (@length frame)) in Q. rewrite app_length in Q. cbn [length] in Q. lia.
    + destruct Rd as (Q' & _). now destruct (N Go).
Qed.
Lemma Answers_step st l st' : Kinv st -> Answers st -> step X cfg st l = Some st' -> Answers st'.
Proof.
  intros K A H.
  assert (D : (exists a, l = LT a) \/ forall a, l <> LT a) by (destruct l; eauto; right; discriminate).
  destruct D as [(a & ->)|N]; [now apply (step_T_Answers st a)|].
  pose proof (step_other_ow _ _ _ H N) as [S1 S2]. destruct A as (A0 & A1).
  assert (D : l = LOpen \/ l <> LOpen) by (destruct l; (now left) || (right; discriminate)).
  destruct D as [-> |D].
  - cbn [step] in H. destruct (p_state st); try discriminate. destruct (p_C st) eqn:HC; try discriminate.
    apply some_inj in H as <-. split; [intros (c & Q); discriminate|left].
    assert (TN : T_exists st = false) by (destruct K as (_ & _ & K3); destruct (T_exists st); [now destruct K3|reflexivity]).
    rewrite (pings_read_eq _ _ S2), S1. destruct A1 as [A1|(p & _ & [(c' & Q)|Q])]; [exact A1| |];
      unfold T_exists, T_done in *; destruct (p_T st); discriminate.
  - destruct (step_T_alone X cfg _ _ _ H N D) as [Q _]. split.
    + rewrite Q. intros C O. exact (A0 C (opens_LOpen X cfg _ _ _ H D O)).
    + rewrite (pings_read_eq _ _ S2), S1. unfold stops, T_done. rewrite Q. exact A1.
Qed.
Lemma Answers_exec exts ls st : exec X cfg (initial exts) ls = Some st -> Answers st.
Proof.
  intros H. assert (Q : Kinv st /\ Answers st); [|apply Q]. revert H.
  apply (exec_steps X cfg (fun st => Kinv st /\ Answers st)).
  - intros st1 l st2 [K A] S0. split; [exact (Kinv_step X cfg _ _ _ K S0)|exact (Answers_step _ _ _ K A S0)].
  - split; [apply Kinv_initial|]. split; [intros (c & Q); discriminate|now left].
Qed.

(* Once transfer_data waits for the end of the connection or is done, no frame is read *)
Lemma stops_step st l st' : Kinv st -> stops st -> step X cfg st l = Some st' -> stops st' /\ p_in st' = p_in st.
Proof.
  intros K S0 H.
  assert (D : (exists a, l = LT a) \/ forall a, l <> LT a) by (destruct l; eauto; right; discriminate).
  destruct D as [(a & ->)|N].
  - cbn [step] in H. unfold step_T in H. destruct S0 as [(c & HT)|D].
    + rewrite HT in H. destruct (p_Tcancel st).
      * destruct a; try discriminate. apply some_inj in H as <-. split; [now right|reflexivity].
      * destruct a; try discriminate. destruct (ensure_open_end st) as [e|]; [|discriminate]. apply some_inj in H as <-.
        destruct (T_raise_still st e) as [[_ Q] D]. split; [now right|exact Q].
    + unfold T_done in D. destruct (p_T st); discriminate.
  - pose proof (step_other_ow _ _ _ H N) as [_ S2]. split; [|exact S2].
    assert (D : l <> LOpen).
    { intros ->. cbn [step] in H. destruct (p_state st); try discriminate. destruct (p_C st) eqn:HC; try discriminate.
      destruct K as (_ & _ & K3). destruct (T_exists st) eqn:Te; [now destruct K3|].
      unfold T_exists in Te. destruct S0 as [(c & Q)|Q]; [rewrite Q in Te|unfold T_done in Q; destruct (p_T st)]; discriminate. }
    destruct (step_T_alone X cfg _ _ _ H N D) as [Q _]. unfold stops, T_done in *. now rewrite Q.
Qed.
Lemma stops_exec exts ls1 s1 ls2 s2 : exec X cfg (initial exts) ls1 = Some s1 -> stops s1 ->
  exec X cfg s1 ls2 = Some s2 -> stops s2 /\ p_in s2 = p_in s1.
Proof.
  intros H1 S0 H2.
  assert (K : Kinv s1).
  { revert H1. apply (exec_steps X cfg Kinv); [|apply Kinv_initial]. intros st1 l st2 K S1. exact (Kinv_step X cfg _ _ _ K S1). }
  assert (Q : Kinv s2 /\ stops s2 /\ p_in s2 = p_in s1); [|tauto].
  revert H2. apply (exec_steps X cfg (fun s2 => Kinv s2 /\ stops s2 /\ p_in s2 = p_in s1)); [|auto].
  intros st1 l st2 (K1 & T1 & I1) S1. destruct (stops_step _ _ _ K1 T1 S1) as [T2 I2].
  split; [exact (Kinv_step X cfg _ _ _ K1 S1)|]. split; [exact T2|congruence].
Qed.
End Answers.
