(* The future that senders wait for isn't resolved yet. *)
From Verif Require Import Base.Prelude Base.PreludeFacts Model.Streams Model.Frames
  Model.LegacyFraming Model.LegacyProtocol Spec.Asyncio
  Proofs.LegacyShapes Proofs.LegacyUsers Proofs.LegacyFields Proofs.LegacyClose.
Local Open Scope N_scope.

Section Waiter.
Context {E : Type} (X : ext_ops E) (cfg : config).
Implicit Type st : conn E.

Definition frag_ok st : Prop := forall w, p_frag st = Some w -> fut_done (get_fut (p_frags st) w) = false.
Definition fo st st' : Prop := frag_ok st -> frag_ok st'.
Lemma fo_refl st : fo st st.
Proof. intros H. exact H. Qed.
Lemma fo_trans st st1 st2 : fo st st1 -> fo st1 st2 -> fo st st2.
Proof. unfold fo. auto. Qed.
Ltac fo := match goal with |- forall _, _ => intros; fo | _ => intros FO; exact FO end.

Lemma cancel_T_fo st : fo st (cancel_T st).
Proof. unfold cancel_T. destruct (_ && _); [fo|apply fo_refl]. Qed.
Lemma fail_fo st code st' e : fail_connection X cfg st code = (st', e) -> fo st st'.
Proof.
  unfold fail_connection. intros H. eapply fo_trans; [apply cancel_T_fo|].
  revert H. generalize (cancel_T st). clear st. intros st.
  assert (G : forall st2 e2,
    (if negb (code =? 1006)%Z && is_open (p_state st)
     then match serialize_close code [] with
          | Raise e => (st, Some e)
          | Ok data => write X cfg (set_state Closing st) ByFailure (mkframe true CLOSE data)
          end
     else (st, None)) = (st2, e2) -> fo st st2).
  { intros st2 e2. destruct (_ && _); [|intros Q; apply pair_equal_spec in Q as [<- _]; apply fo_refl].
    destruct (serialize_close _ _); [|intros Q; apply pair_equal_spec in Q as [<- _]; apply fo_refl].
    intros Q. shapes. fo. }
  destruct (if _ && _ then _ else _) as [st2 e2] eqn:Q. intros H. eapply fo_trans; [exact (G _ _ eq_refl)|].
  destruct e2; apply pair_equal_spec in H as [<- _]; [apply fo_refl|].
  destruct (p_C st2) eqn:HC; try apply fo_refl. fo.
Qed.
Lemma after_drain_fo st a st' r : after_drain X cfg st a = Some (st', r) -> fo st st'.
Proof.
  unfold after_drain. destruct a; try discriminate.
  - intros H. apply some_inj, pair_equal_spec in H as [<- _]. apply fo_refl.
  - destruct (p_lost st) as [l|]; [|discriminate].
    assert (G : (let '(st2, _) := fail_connection X cfg st 1006 in Some (st2, ensure_open st2)) = Some (st', r) -> fo st st').
    { destruct (fail_connection _ _ _ _) as [st2 e2] eqn:F. intros H.
      apply some_inj, pair_equal_spec in H as [<- _]. now apply fail_fo in F. }
    destruct l as [[]|]; destruct o; try discriminate; try exact G;
      intros H; apply some_inj, pair_equal_spec in H as [<- _]; apply fo_refl.
Qed.

Lemma recv_loop_fo st i : fo st (recv_loop st i).
Proof.
  unfold recv_loop. destruct (p_messages st).
  - destruct (T_exists _); fo.
  - change (p_put (set_messages l st)) with (p_put st). destruct (p_put st); [|fo].
    destruct (set_result _ _); fo.
Qed.
Lemma recv_resume_fo st i w : fo st (recv_resume cfg st i w).
Proof.
  unfold recv_resume. destruct (fut_done _).
  - eapply fo_trans; [|apply recv_loop_fo]. fo.
  - destruct (c_legacy_recv cfg); [fo|]. destruct (ensure_open _); [|fo|fo].
    eapply fo_trans; [|apply recv_loop_fo]. fo.
Qed.
Lemma end_fragments_fo st i r : fo st (end_fragments st i r).
Proof.
  unfold end_fragments. destruct (p_frag st); [|fo]. destruct (set_result _ _); [|fo]. intros _ w H. discriminate.
Qed.
Lemma raise_fragments_fo st i e : fo st (raise_fragments X cfg st i e).
Proof.
  unfold raise_fragments.
  destruct (fail_connection X cfg st 1011) as [st2 e2] eqn:F. apply fail_fo in F.
  destruct e; try (eapply fo_trans; [exact F|apply end_fragments_fo]).
  apply end_fragments_fo.
Qed.
Lemma send_item_fo st i op rest d : fo st (send_item X cfg st i op rest d).
Proof.
  unfold send_item. destruct (prepare_data d) as [[op' data]|e]; [|apply raise_fragments_fo].
  destruct (negb _); [apply raise_fragments_fo|].
  destruct (write_frame _ _ _ _ _ _ _ _) as [st2 e] eqn:W. shapes. destruct e.
  - eapply fo_trans; [|apply raise_fragments_fo]. fo.
  - fo.
Qed.
Lemma send_last_fo st i : fo st (send_last X cfg st i).
Proof.
  unfold send_last.
  destruct (write_frame _ _ _ _ _ _ _ _) as [st2 e] eqn:W. shapes. destruct e.
  - eapply fo_trans; [|apply raise_fragments_fo]. fo.
  - fo.
Qed.
Lemma send_next_fo st i op src : fo st (send_next X cfg st i op src).
Proof.
  destruct src as [[|d items] [e|]|]; cbn [send_next];
    [apply raise_fragments_fo|apply send_last_fo|apply send_item_fo|apply send_item_fo|fo].
Qed.
Lemma send_first_fo st i rest d : fo st (send_first X cfg st i rest d).
Proof.
  unfold send_first. destruct (prepare_data d) as [[op data]|e]; [|fo].
  set (st1 := set_frag _ _). assert (S1 : fo st st1).
  { intros _ w H. apply some_inj in H as <-. cbn [p_frags st1 set_frag set_frags]. unfold get_fut. rewrite app_nth2 by lia. now rewrite Nat.sub_diag. }
  clearbody st1. eapply fo_trans; [exact S1|].
  destruct (write_frame _ _ _ _ _ _ _ _) as [st2 e] eqn:W. shapes. destruct e.
  - eapply fo_trans; [|apply raise_fragments_fo]. fo.
  - fo.
Qed.
Lemma send_loop_fo st i m : fo st (send_loop X cfg st i m).
Proof.
  unfold send_loop. destruct (p_frag st); [fo|].
  destruct m as [d| |[|d items] [e|]| |]; try (fo; fail); try apply send_first_fo.
  destruct (prepare_data d) as [[op data]|e]; [|fo].
  destruct (write_frame _ _ _ _ _ _ _ _) as [st2 e] eqn:W. shapes. destruct e; fo.
Qed.
Lemma close_wait_T_fo st i t0 : fo st (close_wait_T cfg st i t0).
Proof. unfold close_wait_T. destruct (T_exists st); fo. Qed.
Lemma close_timed_out_fo st i t0 : fo st (close_timed_out X cfg st i t0).
Proof.
  unfold close_timed_out. destruct (fail_connection _ _ _ _) as [st2 e2] eqn:F. apply fail_fo in F.
  eapply fo_trans; [exact F|apply close_wait_T_fo].
Qed.
Lemma close_start_fo st i code reason : fo st (close_start X cfg st i code reason).
Proof.
  unfold close_start. destruct (serialize_close _ _); [|fo].
  assert (G : fo st
     match write_close_frame X cfg st (ByCall i) a with
     | (st2, Some (Some e)) => raise_ i (PyExn e) st2
     | (st2, Some None) => set_user i (UCloseWrite (deadline st2 (c_close_timeout cfg)) (p_now st2)) st2
     | (st2, None) => close_wait_T cfg st2 i (p_now st2)
     end).
  { destruct (write_close_frame _ _ _ _ _) as [st2 r] eqn:W. shapes.
    destruct r as [[e|]|]; [fo|fo|]. eapply fo_trans; [|apply close_wait_T_fo]. fo. }
  destruct (c_close_timeout cfg) as [[|q]|]; [apply close_timed_out_fo|exact G|exact G].
Qed.
Lemma cancel_call_fo st i pc : fo st (cancel_call X cfg st i pc).
Proof.
  unfold cancel_call. destruct pc; try (fo; fail); try apply raise_fragments_fo.
  - destruct op; [apply raise_fragments_fo|fo].
  - eapply fo_trans; [apply cancel_T_fo|fo].
Qed.

Ltac some_fo H := apply some_inj in H as <-.

Lemma start_call_fo st i c a st' : start_call X cfg st i c a = Some st' -> fo st st'.
Proof.
  unfold start_call. intros H. destruct c; destruct a; try discriminate; try some_fo H.
  - destruct (p_pop st); [fo|apply recv_loop_fo].
  - destruct (ensure_open st); [apply send_loop_fo|fo|fo].
  - apply close_start_fo.
  - destruct (ensure_open st); [|some_fo H; fo|some_fo H; fo]. destruct data as [d|].
    + destruct (prepare_ctrl d); [|some_fo H; fo].
      destruct (has_ping _ _); [some_fo H; fo|].
      destruct (start_ping _ _ _ _ _) as [st2 e] eqn:W. shapes. destruct e; some_fo H; fo.
    + destruct (random_ok _ _); [|discriminate].
      destruct (start_ping _ _ _ _ _) as [st2 e] eqn:W. shapes. destruct e; some_fo H; fo.
  - destruct (ensure_open st); [|fo|fo]. destruct (prepare_ctrl data); [|fo].
    destruct (write_frame _ _ _ _ _ _ _ _) as [st2 e] eqn:W. shapes. destruct e; fo.
  - fo.
Qed.

Lemma step_call_fo st i pc a st' : step_call X cfg st i pc a = Some st' -> fo st st'.
Proof.
  assert (D : forall (k1 : conn E -> conn E) (k2 : conn E -> pexn -> conn E) (k3 : conn E -> conn E),
    (forall s, fo s (k1 s)) -> (forall s e, fo s (k2 s e)) -> (forall s, fo s (k3 s)) ->
    match after_drain X cfg st a with
    | Some (s2, EOk) => Some (k1 s2)
    | Some (s2, ERaise e) => Some (k2 s2 e)
    | Some (s2, EWait) => Some (k3 s2)
    | None => None
    end = Some st' -> fo st st').
  { intros k1 k2 k3 H1 H2 H3 H. destruct (after_drain _ _ _ _) as [[s2 r]|] eqn:Q; [|discriminate].
    apply after_drain_fo in Q.
    destruct r; some_fo H; (eapply fo_trans; [exact Q|first [apply H1|apply H2|apply H3]]). }
  unfold step_call. intros H. destruct pc.
  - eapply start_call_fo; eassumption.
  - destruct a; try discriminate. destruct (_ || _); [|discriminate]. some_fo H. apply recv_resume_fo.
  - destruct a; try discriminate. destruct (fut_done _); [|discriminate]. some_fo H. apply send_loop_fo.
  - destruct a; try discriminate. destruct (ensure_open_end st); [|discriminate]. some_fo H. fo.
  - eapply (D (fun s => return_ i RNone s) (fun s e => raise_ i e s) (fun s => set_user i UEnsure s));
      [fo|fo|fo|exact H].
  - eapply (D (fun s => send_next X cfg s i op rest) (fun s e => raise_fragments X cfg s i e)
             (fun s => set_user i UFragEnsure s));
      [intros; apply send_next_fo|intros; apply raise_fragments_fo|fo|exact H].
  - eapply (D (fun s => end_fragments s i RNone) (fun s e => raise_fragments X cfg s i e)
             (fun s => set_user i UFragEnsure s));
      [intros; apply end_fragments_fo|intros; apply raise_fragments_fo|fo|exact H].
  - destruct a; try discriminate. destruct (ensure_open_end st); [|discriminate]. some_fo H.
    apply raise_fragments_fo.
  - destruct op; destruct a as [| | | | |[]]; try discriminate; some_fo H;
      first [apply send_item_fo|apply send_last_fo|apply raise_fragments_fo
            |apply send_first_fo|fo].
  - eapply (D (fun s => match find_ping s data with
                        | Some w => return_ i (RPing w) s
                        | None => raise_ i (PyExn KeyError) s end) (fun s e => raise_ i e s)
              (fun s => set_user i UEnsure s)); [intros; destruct (find_ping s data); fo|fo|fo|exact H].
  - assert (G : match after_drain X cfg st a with
                | Some (st, EOk) => Some (close_wait_T cfg st i t0)
                | Some (st, ERaise e) => Some (raise_ i e st)
                | Some (st, EWait) => Some (set_user i (UCloseEnsure d t0) st)
                | None => None
                end = Some st' -> fo st st').
    { apply (D (fun s => close_wait_T cfg s i t0) (fun s e => raise_ i e s)
             (fun s => set_user i (UCloseEnsure d t0) s)); [intros; apply close_wait_T_fo|fo|fo]. }
    destruct a; try (now apply G). destruct (expired st d); [|discriminate]. some_fo H.
    apply close_timed_out_fo.
  - destruct a; try discriminate.
    + destruct (ensure_open_end st); [|discriminate]. some_fo H. fo.
    + destruct (expired st d); [|discriminate]. some_fo H. apply close_timed_out_fo.
  - destruct a; try discriminate.
    + destruct (p_T st) as [| | | | | | |[e|]] eqn:HT; try discriminate; some_fo H; fo.
    + destruct (expired st d); [|discriminate]. some_fo H.
      eapply fo_trans; [apply cancel_T_fo|fo].
  - destruct a; try discriminate. destruct (T_done st); [|discriminate]. some_fo H. fo.
  - destruct a; try discriminate.
    destruct (p_C st) as [| | | | | | |[e|]]; try discriminate; some_fo H; fo.
  - destruct a; try discriminate. destruct (is_lost st); [|discriminate]. some_fo H. fo.
  - discriminate.
Qed.
Lemma step_user_fo st i a st' : step_user X cfg st i a = Some st' -> fo st st'.
Proof.
  unfold step_user. destruct (nth_error _ _) as [[pc c]|]; [|discriminate].
  assert (G : step_call X cfg st i pc a = Some st' -> fo st st') by apply step_call_fo.
  assert (G' : match a with Go => Some (cancel_call X cfg st i pc) | _ => None end = Some st' ->
               fo st st').
  { destruct a; try discriminate. intros H'. apply some_inj in H' as <-. apply cancel_call_fo. }
  destruct c; destruct pc; try discriminate; auto.
Qed.


(** Tasks of the connection *)
Lemma write_frame_fo st by_ fin op data expected st' e :
  write_frame X cfg st by_ fin op data expected = (st', e) -> fo st st'.
Proof. intros H. shapes. fo. Qed.
Lemma write_close_frame_fo st by_ data st' e : write_close_frame X cfg st by_ data = (st', e) -> fo st st'.
Proof. intros H. shapes. fo. Qed.
Lemma start_ping_fo st by_ data st' e : start_ping X cfg st by_ data = (st', e) -> fo st st'.
Proof.
  intros H. shapes. fo.
Qed.
Lemma T_raise_fo st e : fo st (T_raise X cfg st e).
Proof.
  unfold T_raise.
  assert (G : forall code, fo st (let '(st2, e') := fail_connection X cfg st code in set_T (TDone e') st2)).
  { intros code. destruct (fail_connection _ _ _ _) as [st2 e2] eqn:F. apply fail_fo in F.
    eapply fo_trans; [exact F|]. fo. }
  destruct e; try apply G. fo.
Qed.
Lemma after_close_fo st c : fo st (after_close X cfg st c).
Proof. unfold after_close. destruct c; try apply T_raise_fo. fo. Qed.
Lemma put_message_fo st m : fo st (put_message X cfg st m).
Proof.
  unfold put_message. destruct (room cfg st); [|fo].
  destruct (p_pop _); [|fo]. destruct (set_result _ _); [fo|].
  eapply fo_trans; [|apply T_raise_fo]. fo.
Qed.
Lemma step_T_fo st a st' : step_T X cfg st a = Some st' -> fo st st'.
Proof.
  intros H. unfold step_T in H.
  destruct (p_T st) as [|c|c|c|c|c|m w|e] eqn:HT; try discriminate; (destruct (p_Tcancel st);
    [destruct a; try discriminate; apply some_inj in H as <-; eapply fo_trans; [|apply T_raise_fo]; fo|]).
  - destruct a; try discriminate. unfold read_frame in H.
    assert (G : match run (legacy_read X (negb (c_client cfg)) (read_limit cfg c)) (p_reader st) (p_exts st) with
        | OSusp _ _ _ => None
        | OFail e r exts => Some (T_raise X cfg (set_reader r (set_exts exts st)) (PyExn e))
        | ODone f r exts =>
          let st := set_in (p_in st ++ [f]) (set_reader r (set_exts exts st)) in
          Some (on_frame X cfg st c f)
        end = Some st' -> fo st st').
    { clear H. destruct (run _ _ _) as [? ? ?|f r ex|e r ex] eqn:Run; cbv zeta; try discriminate; intros H;
        apply some_inj in H as <-; [|eapply fo_trans; [|apply T_raise_fo]; fo].
      set (st1 := set_in _ _).
      apply (fo_trans _ st1); [fo|]. clearbody st1. clear Run HT.
      unfold on_frame.
      assert (D : fo st1 match read_message cfg c f with
             | RMsg m => put_message X cfg st1 m
             | RNext c => set_T (TRead c) st1
             | RExn e => T_raise X cfg st1 (PyExn e)
             end)
        by (destruct (read_message cfg c f); [apply put_message_fo|fo|apply T_raise_fo]).
      destruct (f_opcode f); try exact D.
      - destruct (parse_close _) as [k|]; [|apply T_raise_fo].
        apply (fo_trans _ (set_close (Some k) st1)); [fo|].
        destruct (write_close_frame _ _ _ _ _) as [st2 [[?|]|]] eqn:Wc; apply write_close_frame_fo in Wc;
          (eapply fo_trans; [exact Wc|]); [apply T_raise_fo|fo|apply after_close_fo].
      - destruct (ensure_open _); [|apply T_raise_fo|fo].
        destruct (write_frame _ _ _ _ _ _ _ _) as [st2 [?|]] eqn:Wf; apply write_frame_fo in Wf; try reflexivity;
          (eapply fo_trans; [exact Wf|]); [apply T_raise_fo|fo].
      - destruct (receive_pong_shape st1 (f_data f)) as (? & ? & ->). fo. }
    destruct (p_lost st) as [[o|]|] eqn:L; [|now apply G|now apply G].
    apply some_inj in H as <-. apply T_raise_fo.
  - destruct (after_drain X cfg st a) as [[st2 r]|] eqn:D; [|discriminate]. apply after_drain_fo in D.
    eapply fo_trans; [exact D|].
    destruct r; apply some_inj in H as <-; [fo|apply T_raise_fo|fo].
  - destruct a; try discriminate. destruct (ensure_open_end st); [|discriminate].
    apply some_inj in H as <-. apply T_raise_fo.
  - destruct (after_drain X cfg st a) as [[st2 r]|] eqn:D; [|discriminate]. apply after_drain_fo in D.
    eapply fo_trans; [exact D|].
    destruct r; apply some_inj in H as <-; [apply after_close_fo|
      destruct (is_closed_exn e); [apply after_close_fo|apply T_raise_fo]|fo].
  - destruct a; try discriminate. destruct (ensure_open_end st); [|discriminate].
    apply some_inj in H as <-. destruct (is_closed_exn p); [apply after_close_fo|apply T_raise_fo].
  - destruct a; try discriminate. destruct (fut_done _); [|discriminate]. apply some_inj in H as <-.
    eapply fo_trans; [|apply put_message_fo]. fo.
Qed.
Lemma step_K_fo st a st' : step_K X cfg st a = Some st' -> fo st st'.
Proof.
  intros H. unfold step_K in H.
  destruct (p_K st); try discriminate; (destruct (p_Kcancel st);
    [destruct a; try discriminate; apply some_inj in H as <-; fo|]).
  - destruct a; try discriminate. destruct (c_ping_interval cfg); apply some_inj in H as <-; fo.
  - destruct a; try discriminate. destruct (_ <=? _); [|discriminate].
    destruct (ensure_open st); [|apply some_inj in H as <-; fo|apply some_inj in H as <-; fo].
    destruct (random_ok _ _); [|discriminate].
    destruct (start_ping _ _ _ _ _) as [st2 e2] eqn:Q. apply start_ping_fo in Q.
    destruct e2; apply some_inj in H as <-; (eapply fo_trans; [exact Q|]; fo).
  - destruct (after_drain X cfg st a) as [[st2 r]|] eqn:D; [|discriminate]. apply after_drain_fo in D.
    eapply fo_trans; [exact D|]. destruct r; apply some_inj in H as <-; try (fo; fail).
    unfold after_ping. destruct (find_ping _ _); [|fo].
    destruct (c_ping_timeout cfg); [|fo]. try destruct (_ =? _); fo.
  - destruct a; try discriminate. destruct (ensure_open_end st); [|discriminate].
    apply some_inj in H as <-. fo.
  - destruct a; try discriminate.
    + destruct (get_fut _ _); try discriminate; apply some_inj in H as <-; fo.
    + destruct (_ <=? _); [|discriminate].
      destruct (fail_connection _ _ _ _) as [st2 e2] eqn:F. apply fail_fo in F. apply some_inj in H as <-.
      eapply fo_trans; [exact F|]. fo.
Qed.



Lemma step_C_fo st a st' : step_C cfg st a = Some st' -> fo st st'.
Proof.
  intros H FO.
  assert (CT : forall s e, frag_ok s -> frag_ok (close_tcp cfg s e)).
  { intros s e F. unfold close_tcp. destruct (_ && _); [exact F|]. destruct (is_lost _); exact F. }
  assert (HC : forall s, frag_ok s -> frag_ok (half_close cfg s)).
  { intros s F. unfold half_close. destruct (c_can_write_eof cfg); [|now apply CT]. destruct (is_lost _); [now apply CT|exact F]. }
  assert (AT : forall s, frag_ok s -> frag_ok (after_transfer cfg s)).
  { intros s F. unfold after_transfer. set (s1 := match p_K s with KNone => s | _ => _ end).
    assert (frag_ok s1) by (subst s1; destruct (p_K s); exact F).
    destruct (_ && _); [|now apply HC]. destruct (is_lost _); [now apply CT|assumption]. }
  unfold step_C in H. destruct (p_C st); destruct a; try discriminate.
  - apply some_inj in H as <-. destruct (T_exists st); [exact FO|now apply AT].
  - destruct (p_T st) as [| | | | | | |[e|]]; try discriminate; apply some_inj in H as <-; auto.
  - destruct (is_lost st); [|discriminate]. apply some_inj in H as <-. auto.
  - destruct (expired st d); [|discriminate]. apply some_inj in H as <-. destruct (is_lost st); auto.
  - destruct (is_lost st); [|discriminate]. apply some_inj in H as <-. auto.
  - destruct (expired st d); [|discriminate]. apply some_inj in H as <-. auto.
  - destruct (is_lost st); [|discriminate]. apply some_inj in H as <-. auto.
  - destruct (expired st d); [|discriminate]. destruct (is_lost st); apply some_inj in H as <-; exact FO.
  - destruct (is_lost st); [|discriminate]. apply some_inj in H as <-. auto.
  - destruct (expired st d); [|discriminate]. apply some_inj in H as <-. auto.
Qed.
Lemma step_fo st l st' : step X cfg st l = Some st' -> fo st st'.
Proof.
  intros H. destruct l; cbn [step] in H.
  - destruct (p_state st); try discriminate. destruct (p_C st); try discriminate. apply some_inj in H as <-. fo.
  - apply some_inj in H as <-. destruct (fail_connection X cfg st code) as [st2 e2] eqn:F. apply fail_fo in F. exact F.
  - destruct (r_eof _); [discriminate|]. apply some_inj in H as <-. fo.
  - destruct (r_eof _); [discriminate|]. apply some_inj in H as <-. fo.
  - assert (st' = connection_lost st o closing) as -> by (destruct (p_state st); try discriminate; now apply some_inj in H as <-).
    intros FO. unfold connection_lost. set (s1 := set_state _ _).
    set (s2 := match p_close s1 with None => _ | Some _ => _ end).
    assert (frag_ok s2) by (subst s2; destruct (p_close s1); exact FO). clearbody s2.
    destruct (abort_futs _ _ _) as [futs []]; assumption.
  - apply some_inj in H as <-. fo.
  - apply some_inj in H as <-. fo.
  - apply some_inj in H as <-. fo.
  - destruct (nth_error _ _) as [[[]]|]; try discriminate; apply some_inj in H as <-; fo.
  - now apply step_T_fo in H.
  - now apply step_K_fo in H.
  - now apply step_C_fo in H.
  - now apply step_user_fo in H.
Qed.
Lemma exec_fo st ls st' : exec X cfg st ls = Some st' -> fo st st'.
Proof.
  revert st. induction ls as [|l ls IH]; intros st H; cbn [exec] in H; [apply some_inj in H as <-; fo|].
  destruct (step X cfg st l) as [s1|] eqn:S1; [|discriminate]. eapply fo_trans; [exact (step_fo _ _ _ S1)|now apply IH].
Qed.
Lemma frag_ok_initial exts : frag_ok (initial exts).
Proof. intros w H. discriminate. Qed.
End Waiter.
