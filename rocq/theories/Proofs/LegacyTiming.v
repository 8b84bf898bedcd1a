(* How long calls to close() and the task that closes the connection wait. *)
From Verif Require Import Base.Prelude Base.PreludeFacts Model.Streams Model.Frames
  Model.LegacyFraming Model.LegacyProtocol Spec.Asyncio
  Proofs.LegacyShapes Proofs.LegacyUsers Proofs.LegacyFields Proofs.LegacyClose Proofs.LegacyQueue
  Proofs.LegacyMessages Proofs.LegacyFragments.
Local Open Scope N_scope.

Section Timing.
Context {E : Type} (X : ext_ops E) (cfg : config).
Implicit Type st : conn E.

(* The clock and close_connection's progress don't change; transfer_data stays cancelled *)
Definition ck st st' : Prop :=
  p_now st' = p_now st /\ p_aborted st' = p_aborted st /\
  (p_C st' = p_C st \/ p_C st = CNone /\ p_C st' = CStart) /\
  (p_Tcancel st = true -> p_Tcancel st' = true).

Lemma ck_refl st : ck st st.
Proof. split; [reflexivity|]. split; [reflexivity|]. split; [now left|]. intros H. exact H. Qed.
Lemma ck_trans st st1 st2 : ck st st1 -> ck st1 st2 -> ck st st2.
Proof.
  intros (A1 & A2 & A3 & A4) (B1 & B2 & B3 & B4).
  split; [congruence|]. split; [congruence|]. split; [|auto].
  destruct A3 as [A3|[A3 A3']], B3 as [B3|[B3 B3']]; try congruence; [left; congruence|right|right]; split; congruence.
Qed.
Ltac ck := match goal with |- forall _, _ => intros; ck | _ => 
  split; [reflexivity|split; [reflexivity|split; [left; reflexivity|intros ?; assumption]]] end.

Lemma cancel_T_ck st : ck st (cancel_T st).
Proof. unfold cancel_T. destruct (_ && _); [|apply ck_refl]. split; [reflexivity|]. split; [reflexivity|]. split; [now left|reflexivity]. Qed.
Lemma fail_ck st code st' e : fail_connection X cfg st code = (st', e) -> ck st st'.
Proof.
  unfold fail_connection. intros H. eapply ck_trans; [apply cancel_T_ck|].
  revert H. generalize (cancel_T st). clear st. intros st.
  assert (G : forall st2 e2,
    (if negb (code =? 1006)%Z && is_open (p_state st)
     then match serialize_close code [] with
          | Raise e => (st, Some e)
          | Ok data => write X cfg (set_state Closing st) ByFailure (mkframe true CLOSE data)
          end
     else (st, None)) = (st2, e2) -> ck st st2).
  { intros st2 e2. destruct (_ && _); [|intros Q; apply pair_equal_spec in Q as [<- _]; apply ck_refl].
    destruct (serialize_close _ _); [|intros Q; apply pair_equal_spec in Q as [<- _]; apply ck_refl].
    intros Q. shapes. ck. }
  destruct (if _ && _ then _ else _) as [st2 e2] eqn:Q. intros H. eapply ck_trans; [exact (G _ _ eq_refl)|].
  destruct e2; apply pair_equal_spec in H as [<- _]; [apply ck_refl|].
  destruct (p_C st2) eqn:HC; try apply ck_refl.
  split; [reflexivity|]. split; [reflexivity|]. split; [right; now split|]. intros ?; assumption.
Qed.
Lemma after_drain_ck st a st' r : after_drain X cfg st a = Some (st', r) -> ck st st'.
Proof.
  unfold after_drain. destruct a; try discriminate.
  - intros H. apply some_inj, pair_equal_spec in H as [<- _]. apply ck_refl.
  - destruct (p_lost st) as [l|]; [|discriminate].
    assert (G : (let '(st2, _) := fail_connection X cfg st 1006 in Some (st2, ensure_open st2)) = Some (st', r) -> ck st st').
    { destruct (fail_connection _ _ _ _) as [st2 e2] eqn:F. intros H.
      apply some_inj, pair_equal_spec in H as [<- _]. now apply fail_ck in F. }
    destruct l as [[]|]; destruct o; try discriminate; try exact G;
      intros H; apply some_inj, pair_equal_spec in H as [<- _]; apply ck_refl.
Qed.

Lemma recv_loop_ck st i : ck st (recv_loop st i).
Proof.
  unfold recv_loop. destruct (p_messages st).
  - destruct (T_exists _); ck.
  - change (p_put (set_messages l st)) with (p_put st). destruct (p_put st); [|ck].
    destruct (set_result _ _); ck.
Qed.
Lemma recv_resume_ck st i w : ck st (recv_resume cfg st i w).
Proof.
  unfold recv_resume. destruct (fut_done _).
  - eapply ck_trans; [|apply recv_loop_ck]. ck.
  - destruct (c_legacy_recv cfg); [ck|]. destruct (ensure_open _); [|ck|ck].
    eapply ck_trans; [|apply recv_loop_ck]. ck.
Qed.
Lemma end_fragments_ck st i r : ck st (end_fragments st i r).
Proof. unfold end_fragments. destruct (p_frag st); [|ck]. destruct (set_result _ _); ck. Qed.
Lemma raise_fragments_ck st i e : ck st (raise_fragments X cfg st i e).
Proof.
  unfold raise_fragments.
  destruct (fail_connection X cfg st 1011) as [st2 e2] eqn:F. apply fail_ck in F.
  destruct e; try (eapply ck_trans; [exact F|apply end_fragments_ck]).
  apply end_fragments_ck.
Qed.
Lemma send_item_ck st i op rest d : ck st (send_item X cfg st i op rest d).
Proof.
  unfold send_item. destruct (prepare_data d) as [[op' data]|e]; [|apply raise_fragments_ck].
  destruct (negb _); [apply raise_fragments_ck|].
  destruct (write_frame _ _ _ _ _ _ _ _) as [st2 e] eqn:W. shapes. destruct e.
  - eapply ck_trans; [|apply raise_fragments_ck]. ck.
  - ck.
Qed.
Lemma send_last_ck st i : ck st (send_last X cfg st i).
Proof.
  unfold send_last.
  destruct (write_frame _ _ _ _ _ _ _ _) as [st2 e] eqn:W. shapes. destruct e.
  - eapply ck_trans; [|apply raise_fragments_ck]. ck.
  - ck.
Qed.
Lemma send_next_ck st i op src : ck st (send_next X cfg st i op src).
Proof.
  destruct src as [[|d items] [e|]|]; cbn [send_next];
    [apply raise_fragments_ck|apply send_last_ck|apply send_item_ck|apply send_item_ck|ck].
Qed.
Lemma send_first_ck st i rest d : ck st (send_first X cfg st i rest d).
Proof.
  unfold send_first. destruct (prepare_data d) as [[op data]|e]; [|ck].
  destruct (write_frame _ _ _ _ _ _ _ _) as [st2 e] eqn:W. shapes. destruct e.
  - eapply ck_trans; [|apply raise_fragments_ck]. ck.
  - ck.
Qed.
Lemma send_loop_ck st i m : ck st (send_loop X cfg st i m).
Proof.
  unfold send_loop. destruct (p_frag st); [ck|].
  destruct m as [d| |[|d items] [e|]| |]; try (ck; fail); try apply send_first_ck.
  destruct (prepare_data d) as [[op data]|e]; [|ck].
  destruct (write_frame _ _ _ _ _ _ _ _) as [st2 e] eqn:W. shapes. destruct e; ck.
Qed.
Lemma close_wait_T_ck st i t0 : ck st (close_wait_T cfg st i t0).
Proof. unfold close_wait_T. destruct (T_exists st); ck. Qed.
Lemma close_timed_out_ck st i t0 : ck st (close_timed_out X cfg st i t0).
Proof.
  unfold close_timed_out. destruct (fail_connection _ _ _ _) as [st2 e2] eqn:F. apply fail_ck in F.
  eapply ck_trans; [exact F|apply close_wait_T_ck].
Qed.
Lemma close_start_ck st i code reason : ck st (close_start X cfg st i code reason).
Proof.
  unfold close_start. destruct (serialize_close _ _); [|ck].
  assert (G : ck st
     match write_close_frame X cfg st (ByCall i) a with
     | (st2, Some (Some e)) => raise_ i (PyExn e) st2
     | (st2, Some None) => set_user i (UCloseWrite (deadline st2 (c_close_timeout cfg)) (p_now st2)) st2
     | (st2, None) => close_wait_T cfg st2 i (p_now st2)
     end).
  { destruct (write_close_frame _ _ _ _ _) as [st2 r] eqn:W. shapes.
    destruct r as [[e|]|]; [ck|ck|]. eapply ck_trans; [|apply close_wait_T_ck]. ck. }
  destruct (c_close_timeout cfg) as [[|q]|]; [apply close_timed_out_ck|exact G|exact G].
Qed.
Lemma cancel_call_ck st i pc : ck st (cancel_call X cfg st i pc).
Proof.
  unfold cancel_call. destruct pc; try (ck; fail); try apply raise_fragments_ck.
  - destruct op; [apply raise_fragments_ck|ck].
  - eapply ck_trans; [apply cancel_T_ck|ck].
Qed.

Ltac some_ck H := apply some_inj in H as <-.

Lemma start_call_ck st i c a st' : start_call X cfg st i c a = Some st' -> ck st st'.
Proof.
  unfold start_call. intros H. destruct c; destruct a; try discriminate; try some_ck H.
  - destruct (p_pop st); [ck|apply recv_loop_ck].
  - destruct (ensure_open st); [apply send_loop_ck|ck|ck].
  - apply close_start_ck.
  - destruct (ensure_open st); [|some_ck H; ck|some_ck H; ck]. destruct data as [d|].
    + destruct (prepare_ctrl d); [|some_ck H; ck].
      destruct (has_ping _ _); [some_ck H; ck|].
      destruct (start_ping _ _ _ _ _) as [st2 e] eqn:W. shapes. destruct e; some_ck H; ck.
    + destruct (random_ok _ _); [|discriminate].
      destruct (start_ping _ _ _ _ _) as [st2 e] eqn:W. shapes. destruct e; some_ck H; ck.
  - destruct (ensure_open st); [|ck|ck]. destruct (prepare_ctrl data); [|ck].
    destruct (write_frame _ _ _ _ _ _ _ _) as [st2 e] eqn:W. shapes. destruct e; ck.
  - ck.
Qed.

Lemma step_call_ck st i pc a st' : step_call X cfg st i pc a = Some st' -> ck st st'.
Proof.
  assert (D : forall (k1 : conn E -> conn E) (k2 : conn E -> pexn -> conn E) (k3 : conn E -> conn E),
    (forall s, ck s (k1 s)) -> (forall s e, ck s (k2 s e)) -> (forall s, ck s (k3 s)) ->
    match after_drain X cfg st a with
    | Some (s2, EOk) => Some (k1 s2)
    | Some (s2, ERaise e) => Some (k2 s2 e)
    | Some (s2, EWait) => Some (k3 s2)
    | None => None
    end = Some st' -> ck st st').
  { intros k1 k2 k3 H1 H2 H3 H. destruct (after_drain _ _ _ _) as [[s2 r]|] eqn:Q; [|discriminate].
    apply after_drain_ck in Q.
    destruct r; some_ck H; (eapply ck_trans; [exact Q|first [apply H1|apply H2|apply H3]]). }
  unfold step_call. intros H. destruct pc.
  - eapply start_call_ck; eassumption.
  - destruct a; try discriminate. destruct (_ || _); [|discriminate]. some_ck H. apply recv_resume_ck.
  - destruct a; try discriminate. destruct (fut_done _); [|discriminate]. some_ck H. apply send_loop_ck.
  - destruct a; try discriminate. destruct (ensure_open_end st); [|discriminate]. some_ck H. ck.
  - eapply (D (fun s => return_ i RNone s) (fun s e => raise_ i e s) (fun s => set_user i UEnsure s));
      [ck|ck|ck|exact H].
  - eapply (D (fun s => send_next X cfg s i op rest) (fun s e => raise_fragments X cfg s i e)
             (fun s => set_user i UFragEnsure s));
      [intros; apply send_next_ck|intros; apply raise_fragments_ck|ck|exact H].
  - eapply (D (fun s => end_fragments s i RNone) (fun s e => raise_fragments X cfg s i e)
             (fun s => set_user i UFragEnsure s));
      [intros; apply end_fragments_ck|intros; apply raise_fragments_ck|ck|exact H].
  - destruct a; try discriminate. destruct (ensure_open_end st); [|discriminate]. some_ck H.
    apply raise_fragments_ck.
  - destruct op; destruct a as [| | | | |[]]; try discriminate; some_ck H;
      first [apply send_item_ck|apply send_last_ck|apply raise_fragments_ck
            |apply send_first_ck|ck].
  - eapply (D (fun s => match find_ping s data with
                        | Some w => return_ i (RPing w) s
                        | None => raise_ i (PyExn KeyError) s end) (fun s e => raise_ i e s)
              (fun s => set_user i UEnsure s)); [intros; destruct (find_ping s data); ck|ck|ck|exact H].
  - assert (G : match after_drain X cfg st a with
                | Some (st, EOk) => Some (close_wait_T cfg st i t0)
                | Some (st, ERaise e) => Some (raise_ i e st)
                | Some (st, EWait) => Some (set_user i (UCloseEnsure d t0) st)
                | None => None
                end = Some st' -> ck st st').
    { apply (D (fun s => close_wait_T cfg s i t0) (fun s e => raise_ i e s)
             (fun s => set_user i (UCloseEnsure d t0) s)); [intros; apply close_wait_T_ck|ck|ck]. }
    destruct a; try (now apply G). destruct (expired st d); [|discriminate]. some_ck H.
    apply close_timed_out_ck.
  - destruct a; try discriminate.
    + destruct (ensure_open_end st); [|discriminate]. some_ck H. ck.
    + destruct (expired st d); [|discriminate]. some_ck H. apply close_timed_out_ck.
  - destruct a; try discriminate.
    + destruct (p_T st) as [| | | | | | |[e|]] eqn:HT; try discriminate; some_ck H; ck.
    + destruct (expired st d); [|discriminate]. some_ck H.
      eapply ck_trans; [apply cancel_T_ck|ck].
  - destruct a; try discriminate. destruct (T_done st); [|discriminate]. some_ck H. ck.
  - destruct a; try discriminate.
    destruct (p_C st) as [| | | | | | |[e|]]; try discriminate; some_ck H; ck.
  - destruct a; try discriminate. destruct (is_lost st); [|discriminate]. some_ck H. ck.
  - discriminate.
Qed.
Lemma step_user_ck st i a st' : step_user X cfg st i a = Some st' -> ck st st'.
Proof.
  unfold step_user. destruct (nth_error _ _) as [[pc c]|]; [|discriminate].
  assert (G : step_call X cfg st i pc a = Some st' -> ck st st') by apply step_call_ck.
  assert (G' : match a with Go => Some (cancel_call X cfg st i pc) | _ => None end = Some st' ->
               ck st st').
  { destruct a; try discriminate. intros H'. apply some_inj in H' as <-. apply cancel_call_ck. }
  destruct c; destruct pc; try discriminate; auto.
Qed.


(** Tasks of the connection *)
Lemma write_frame_ck st by_ fin op data expected st' e :
  write_frame X cfg st by_ fin op data expected = (st', e) -> ck st st'.
Proof. intros H. shapes. ck. Qed.
Lemma write_close_frame_ck st by_ data st' e : write_close_frame X cfg st by_ data = (st', e) -> ck st st'.
Proof. intros H. shapes. ck. Qed.
Lemma start_ping_ck st by_ data st' e : start_ping X cfg st by_ data = (st', e) -> ck st st'.
Proof.
  intros H. shapes. ck.
Qed.
Lemma T_raise_ck st e : ck st (T_raise X cfg st e).
Proof.
  unfold T_raise.
  assert (G : forall code, ck st (let '(st2, e') := fail_connection X cfg st code in set_T (TDone e') st2)).
  { intros code. destruct (fail_connection _ _ _ _) as [st2 e2] eqn:F. apply fail_ck in F.
    eapply ck_trans; [exact F|]. ck. }
  destruct e; try apply G. ck.
Qed.
Lemma after_close_ck st c : ck st (after_close X cfg st c).
Proof. unfold after_close. destruct c; try apply T_raise_ck. ck. Qed.
Lemma put_message_ck st m : ck st (put_message X cfg st m).
Proof.
  unfold put_message. destruct (room cfg st); [|ck].
  destruct (p_pop _); [|ck]. destruct (set_result _ _); [ck|].
  eapply ck_trans; [|apply T_raise_ck]. ck.
Qed.
Lemma step_T_ck st a st' : step_T X cfg st a = Some st' -> ck st st'.
Proof.
  intros H. unfold step_T in H.
  destruct (p_T st) as [|c|c|c|c|c|m w|e] eqn:HT; try discriminate; (destruct (p_Tcancel st);
    [destruct a; try discriminate; apply some_inj in H as <-; eapply ck_trans; [|apply T_raise_ck]; ck|]).
  - destruct a; try discriminate. unfold read_frame in H.
    assert (G : match run (legacy_read X (negb (c_client cfg)) (read_limit cfg c)) (p_reader st) (p_exts st) with
        | OSusp _ _ _ => None
        | OFail e r exts => Some (T_raise X cfg (set_reader r (set_exts exts st)) (PyExn e))
        | ODone f r exts =>
          let st := set_in (p_in st ++ [f]) (set_reader r (set_exts exts st)) in
          Some (on_frame X cfg st c f)
        end = Some st' -> ck st st').
    { clear H. destruct (run _ _ _) as [? ? ?|f r ex|e r ex] eqn:Run; cbv zeta; try discriminate; intros H;
        apply some_inj in H as <-; [|eapply ck_trans; [|apply T_raise_ck]; ck].
      set (st1 := set_in _ _).
      apply (ck_trans _ st1); [ck|]. clearbody st1. clear Run HT.
      unfold on_frame.
      assert (D : ck st1 match read_message cfg c f with
             | RMsg m => put_message X cfg st1 m
             | RNext c => set_T (TRead c) st1
             | RExn e => T_raise X cfg st1 (PyExn e)
             end)
        by (destruct (read_message cfg c f); [apply put_message_ck|ck|apply T_raise_ck]).
      destruct (f_opcode f); try exact D.
      - destruct (parse_close _) as [k|]; [|apply T_raise_ck].
        apply (ck_trans _ (set_close (Some k) st1)); [ck|].
        destruct (write_close_frame _ _ _ _ _) as [st2 [[?|]|]] eqn:Wc; apply write_close_frame_ck in Wc;
          (eapply ck_trans; [exact Wc|]); [apply T_raise_ck|ck|apply after_close_ck].
      - destruct (ensure_open _); [|apply T_raise_ck|ck].
        destruct (write_frame _ _ _ _ _ _ _ _) as [st2 [?|]] eqn:Wf; apply write_frame_ck in Wf; try reflexivity;
          (eapply ck_trans; [exact Wf|]); [apply T_raise_ck|ck].
      - destruct (receive_pong_shape st1 (f_data f)) as (? & ? & ->). ck. }
    destruct (p_lost st) as [[o|]|] eqn:L; [|now apply G|now apply G].
    apply some_inj in H as <-. apply T_raise_ck.
  - destruct (after_drain X cfg st a) as [[st2 r]|] eqn:D; [|discriminate]. apply after_drain_ck in D.
    eapply ck_trans; [exact D|].
    destruct r; apply some_inj in H as <-; [ck|apply T_raise_ck|ck].
  - destruct a; try discriminate. destruct (ensure_open_end st); [|discriminate].
    apply some_inj in H as <-. apply T_raise_ck.
  - destruct (after_drain X cfg st a) as [[st2 r]|] eqn:D; [|discriminate]. apply after_drain_ck in D.
    eapply ck_trans; [exact D|].
    destruct r; apply some_inj in H as <-; [apply after_close_ck|
      destruct (is_closed_exn e); [apply after_close_ck|apply T_raise_ck]|ck].
  - destruct a; try discriminate. destruct (ensure_open_end st); [|discriminate].
    apply some_inj in H as <-. destruct (is_closed_exn p); [apply after_close_ck|apply T_raise_ck].
  - destruct a; try discriminate. destruct (fut_done _); [|discriminate]. apply some_inj in H as <-.
    eapply ck_trans; [|apply put_message_ck]. ck.
Qed.
Lemma step_K_ck st a st' : step_K X cfg st a = Some st' -> ck st st'.
Proof.
  intros H. unfold step_K in H.
  destruct (p_K st); try discriminate; (destruct (p_Kcancel st);
    [destruct a; try discriminate; apply some_inj in H as <-; ck|]).
  - destruct a; try discriminate. destruct (c_ping_interval cfg); apply some_inj in H as <-; ck.
  - destruct a; try discriminate. destruct (_ <=? _); [|discriminate].
    destruct (ensure_open st); [|apply some_inj in H as <-; ck|apply some_inj in H as <-; ck].
    destruct (random_ok _ _); [|discriminate].
    destruct (start_ping _ _ _ _ _) as [st2 e2] eqn:Q. apply start_ping_ck in Q.
    destruct e2; apply some_inj in H as <-; (eapply ck_trans; [exact Q|]; ck).
  - destruct (after_drain X cfg st a) as [[st2 r]|] eqn:D; [|discriminate]. apply after_drain_ck in D.
    eapply ck_trans; [exact D|]. destruct r; apply some_inj in H as <-; try (ck; fail).
    unfold after_ping. destruct (find_ping _ _); [|ck].
    destruct (c_ping_timeout cfg); [|ck]. try destruct (_ =? _); ck.
  - destruct a; try discriminate. destruct (ensure_open_end st); [|discriminate].
    apply some_inj in H as <-. ck.
  - destruct a; try discriminate.
    + destruct (get_fut _ _); try discriminate; apply some_inj in H as <-; ck.
    + destruct (_ <=? _); [|discriminate].
      destruct (fail_connection _ _ _ _) as [st2 e2] eqn:F. apply fail_ck in F. apply some_inj in H as <-.
      eapply ck_trans; [exact F|]. ck.
Qed.


Lemma T_raise_done st e : T_done (T_raise X cfg st e) = true.
Proof.
  unfold T_raise. destruct e; try reflexivity; destruct (fail_connection _ _ _ _); reflexivity.
Qed.
Lemma done_exists st : T_done st = true -> T_exists st = true.
Proof. unfold T_done, T_exists. destruct (p_T st); congruence. Qed.
Lemma T_raise_exists st e : T_exists (T_raise X cfg st e) = true.
Proof. apply done_exists, T_raise_done. Qed.
Lemma after_close_exists st c : T_exists (after_close X cfg st c) = true.
Proof. unfold after_close. destruct c; try apply T_raise_exists. reflexivity. Qed.
Lemma put_message_exists st m : T_exists (put_message X cfg st m) = true.
Proof.
  unfold put_message. destruct (room cfg st); [|reflexivity].
  destruct (p_pop _); [|reflexivity]. destruct (set_result _ _); [reflexivity|apply T_raise_exists].
Qed.
Lemma on_frame_exists st c f : T_exists st = true -> T_exists (on_frame X cfg st c f) = true.
Proof.
  intros H0. unfold on_frame.
  assert (D : T_exists match read_message cfg c f with
         | RMsg m => put_message X cfg st m
         | RNext c => set_T (TRead c) st
         | RExn e => T_raise X cfg st (PyExn e)
         end = true)
    by (destruct (read_message cfg c f); [apply put_message_exists|reflexivity|apply T_raise_exists]).
  destruct (f_opcode f); try exact D.
  - destruct (parse_close _) as [k|]; [|apply T_raise_exists].
    destruct (write_close_frame _ _ _ _ _) as [st2 [[?|]|]];
      [apply T_raise_exists|reflexivity|apply after_close_exists].
  - destruct (ensure_open _); [|apply T_raise_exists|reflexivity].
    destruct (write_frame _ _ _ _ _ _ _ _) as [st2 [?|]]; [apply T_raise_exists|reflexivity].
  - reflexivity.
Qed.
Lemma step_T_ends st a st' : step_T X cfg st a = Some st' ->
  T_exists st = true /\ T_exists st' = true /\ (p_Tcancel st = true -> T_done st' = true) /\ T_done st = false.
Proof.
  intros H. unfold step_T in H.
  assert (Ex : T_exists st = true /\ T_done st = false)
    by (unfold T_exists, T_done; destruct (p_T st); try discriminate; now split).
  destruct Ex as [Ex Nd]. split; [exact Ex|]. cut (T_exists st' = true /\ (p_Tcancel st = true -> T_done st' = true)); [tauto|].
  destruct (p_T st) as [|c|c|c|c|c|m w|e] eqn:HT; try discriminate; (destruct (p_Tcancel st);
    [destruct a; try discriminate; apply some_inj in H as <-; split; intros; [apply T_raise_exists|apply T_raise_done]|
     split; [|discriminate]]).
  - destruct a; try discriminate. unfold read_frame in H.
    assert (G : match run (legacy_read X (negb (c_client cfg)) (read_limit cfg c)) (p_reader st) (p_exts st) with
        | OSusp _ _ _ => None
        | OFail e r exts => Some (T_raise X cfg (set_reader r (set_exts exts st)) (PyExn e))
        | ODone f r exts =>
          let st := set_in (p_in st ++ [f]) (set_reader r (set_exts exts st)) in
          Some (on_frame X cfg st c f)
        end = Some st' -> T_exists st' = true).
    { clear H. destruct (run _ _ _) as [? ? ?|f r ex|e r ex] eqn:Run; cbv zeta; try discriminate; intros H;
        apply some_inj in H as <-; [|apply T_raise_exists].
      apply on_frame_exists. exact Ex. }
    destruct (p_lost st) as [[o|]|] eqn:L; [|now apply G|now apply G].
    apply some_inj in H as <-. apply T_raise_exists.
  - destruct (after_drain X cfg st a) as [[st2 r]|] eqn:D; [|discriminate].
    destruct r; apply some_inj in H as <-; [reflexivity|apply T_raise_exists|reflexivity].
  - destruct a; try discriminate. destruct (ensure_open_end st); [|discriminate].
    apply some_inj in H as <-. apply T_raise_exists.
  - destruct (after_drain X cfg st a) as [[st2 r]|] eqn:D; [|discriminate].
    destruct r; apply some_inj in H as <-; [apply after_close_exists|
      destruct (is_closed_exn e); [apply after_close_exists|apply T_raise_exists]|reflexivity].
  - destruct a; try discriminate. destruct (ensure_open_end st); [|discriminate].
    apply some_inj in H as <-. destruct (is_closed_exn p); [apply after_close_exists|apply T_raise_exists].
  - destruct a; try discriminate. destruct (fut_done _); [|discriminate]. apply some_inj in H as <-.
    apply put_message_exists.
Qed.

(** The invariant *)
Section Bound.
Variable T A t0 : N.
Hypothesis timeout : c_close_timeout cfg = Some T.
Variable i : nat.

Definition waits : N := if c_client cfg then 5 else 4.

(* transfer_data is done or about to be cancelled *)
Definition Tend st : Prop := T_done st = true \/ T_exists st = true /\ p_Tcancel st = true.

(* close_connection doesn't wait more than T at a time *)
Definition upto st (d : option N) : Prop := exists dd, d = Some dd /\ p_now st <= dd /\ dd <= p_now st + T.
Definition Cw st : Prop :=
  (T_exists st = true -> p_C st <> CNone) /\
  match p_C st with
  | CLost1 d => c_client cfg = true /\ upto st d
  | CLost2 d | CLost3 d _ => upto st d
  | CLost4 d _ => upto st d /\ exists ta, p_aborted st = Some ta /\ d = Some (ta + T) /\ p_now st <= ta + A
  | _ => True
  end.
(* before which time the d-th stage of close_connection ends, when close() waits for it *)
Definition Late st : Prop :=
  match p_C st with
  | CNone => False
  | CStart | CWaitT => p_now st <= t0 + 2 * T
  | CLost1 (Some d) => d <= t0 + 3 * T
  | CLost2 (Some d) => d <= t0 + (waits - 1) * T
  | CLost3 (Some d) _ => d <= t0 + waits * T
  | CLost4 (Some d) _ => d <= t0 + waits * T + T
  | CDone _ => p_now st <= t0 + waits * T + N.min A T
  | _ => False
  end.
Definition Uw st : Prop :=
  match nth_error (p_users st) i with
  | Some (UStart (CallClose _ _), _) => p_now st = t0
  | Some (UCloseWrite d t, _) | Some (UCloseEnsure d t, _) => d = Some (t0 + T) /\ p_now st <= t0 + T
  | Some (UCloseT d t, _) =>
      T_exists st = true /\ exists dd, d = Some dd /\ p_now st <= dd /\ dd <= t0 + 2 * T
  | Some (UCloseT2 t, _) => Tend st /\ p_now st <= t0 + 2 * T
  | Some (UCloseC t, _) => Tend st /\ Late st
  | Some (UDone _, _) | None => True
  | _ => False
  end.
Definition Timed st : Prop := Cw st /\ Uw st.

Lemma Late_bound st : Cw st -> Late st -> p_now st <= t0 + waits * T + N.min A T.
Proof.
  unfold Cw, Late, upto, waits. intros (_ & C). destruct (c_client cfg);
  destruct (p_C st) as [| | |[d|]|[d|]|[d|] e|[d|] e|e]; try tauto; intros L;
    repeat match goal with
    | H : _ /\ _ |- _ => destruct H
    | H : ex _ |- _ => destruct H
    | H : Some _ = Some _ |- _ => apply some_inj in H
    end; subst; try discriminate; lia.
Qed.
Lemma Uw_bound st pc c : nth_error (p_users st) i = Some (pc, c) -> (forall r, pc <> UDone r) -> Timed st ->
  p_now st <= t0 + waits * T + N.min A T.
Proof.
  intros Hi Hd [C U]. unfold Uw in U. rewrite Hi in U.
  assert (W : 4 <= waits) by (unfold waits; destruct (c_client cfg); lia).
  assert (W' : 4 * T <= waits * T) by (apply N.mul_le_mono_r; exact W).
  destruct pc; try tauto.
  - destruct c0; try tauto. lia.
  - lia.
  - lia.
  - destruct U as (_ & dd & _ & U1 & U2). lia.
  - lia.
  - now apply Late_bound.
  - now destruct (Hd r).
Qed.

(* The call sees the same connection *)
Lemma Timed_same st st' :
  p_now st' = p_now st -> p_aborted st' = p_aborted st ->
  (p_C st' = p_C st \/ p_C st = CNone /\ p_C st' = CStart) ->
  (T_exists st' = T_exists st) -> (Tend st -> Tend st') ->
  (forall pc c, nth_error (p_users st) i = Some (pc, c) -> exists c', nth_error (p_users st') i = Some (pc, c')) ->
  (nth_error (p_users st) i = None -> nth_error (p_users st') i = None) ->
  Timed st -> Timed st'.
Proof.
  intros E1 E2 E3 E4 E5 E6 E7 [[C0 C] U]. split; [split|].
  - rewrite E4. intros Q. specialize (C0 Q). destruct E3 as [->|[E3 _]]; [exact C0|contradiction].
  - destruct E3 as [->|[E3 ->]]; [|exact Logic.I]. unfold upto. now rewrite E1, E2.
  - unfold Uw in *. destruct (nth_error (p_users st) i) as [[pc c]|] eqn:Q; [|now rewrite E7].
    destruct (E6 pc c eq_refl) as (c' & ->). destruct pc; try tauto.
    + destruct c0; congruence.
    + now rewrite E1.
    + now rewrite E1.
    + rewrite E1, E4. exact U.
    + rewrite E1. tauto.
    + destruct U as [U1 U2]. split; [auto|]. unfold Late in *. rewrite E1.
      destruct E3 as [->|[E3 ->]]; [exact U2|]. now rewrite E3 in U2.
Qed.
Lemma Tend_ck st st' : p_T st' = p_T st -> ck st st' -> Tend st -> Tend st'.
Proof. unfold Tend, T_done, T_exists. intros -> (_ & _ & _ & H). tauto. Qed.
Lemma T_exists_same st st' : p_T st' = p_T st -> T_exists st' = T_exists st.
Proof. unfold T_exists. now intros ->. Qed.
Lemma Timed_ck st st' :
  ck st st' -> p_T st' = p_T st ->
  (forall pc c, nth_error (p_users st) i = Some (pc, c) -> exists c', nth_error (p_users st') i = Some (pc, c')) ->
  (nth_error (p_users st) i = None -> nth_error (p_users st') i = None) ->
  Timed st -> Timed st'.
Proof.
  intros K HT. destruct K as (A1 & A2 & A3 & A4) eqn:K'. clear K'. apply Timed_same; auto.
  - now apply T_exists_same.
  - apply Tend_ck; [exact HT|]. exact (conj A1 (conj A2 (conj A3 A4))).
Qed.

(** Time passes *)
Lemma ready_no_tick st d l : may_pass X cfg A st d ->
  (l = LT Go \/ l = LC Go \/ l = LC Timeout \/ (exists i, l = LUser i Go) \/ (exists i, l = LUser i Timeout)) ->
  forall x, step X cfg (set_now (p_now st + x) st) l <> None -> d <= x.
Proof.
  intros [P _] Hl x S. destruct (N.le_gt_cases d x) as [Q|Q]; [exact Q|]. exfalso. apply (P x Q).
  exists l. now split.
Qed.
Lemma tick_C st d : may_pass X cfg A st d -> Cw st -> Cw (set_now (p_now st + d) st).
Proof.
  intros P [C0 C]. split; [exact C0|]. cbn [p_C set_now]. unfold upto in *. cbn [p_now set_now p_aborted].
  assert (G : forall dd, p_now st <= dd -> dd <= p_now st + T ->
    (forall x, dd <= p_now st + x -> step X cfg (set_now (p_now st + x) st) (LC Timeout) <> None) ->
    p_now st + d <= dd /\ dd <= p_now st + d + T).
  { intros dd L1 L2 S. assert (d <= dd - p_now st); [|lia].
    apply (ready_no_tick st d (LC Timeout)); [exact P|tauto|]. apply S. lia. }
  destruct (p_C st) as [| | |d1|d1|d1 e|d1 e|e] eqn:HC; try exact Logic.I.
  - destruct C as (C1 & dd & -> & C2 & C3). split; [exact C1|]. exists dd. split; [reflexivity|].
    apply G; try assumption. intros x Hx. cbn [step step_C p_C set_now]. unfold step_C. cbn [p_C set_now]. rewrite HC.
    cbn [expired p_now set_now]. rewrite (proj2 (N.leb_le _ _) Hx). discriminate.
  - destruct C as (dd & -> & C2 & C3). exists dd. split; [reflexivity|].
    apply G; try assumption. intros x Hx. cbn [step]. unfold step_C. cbn [p_C set_now]. rewrite HC.
    cbn [expired p_now set_now]. rewrite (proj2 (N.leb_le _ _) Hx). discriminate.
  - destruct C as (dd & -> & C2 & C3). exists dd. split; [reflexivity|].
    apply G; try assumption. intros x Hx. cbn [step]. unfold step_C. cbn [p_C set_now]. rewrite HC.
    cbn [expired p_now set_now]. rewrite (proj2 (N.leb_le _ _) Hx). destruct (is_lost _); discriminate.
  - destruct C as ((dd & Q & C2 & C3) & ta & C4 & C5 & C6). split.
    + exists dd. split; [exact Q|].
      apply G; try assumption. intros x Hx. cbn [step]. unfold step_C. cbn [p_C set_now]. rewrite HC, Q.
      cbn [expired p_now set_now]. rewrite (proj2 (N.leb_le _ _) Hx). discriminate.
    + exists ta. split; [exact C4|]. split; [exact C5|].
      destruct (p_lost st) eqn:L.
      * assert (d <= 0); [|lia]. apply (ready_no_tick st d (LC Go)); [exact P|tauto|].
        cbn [step]. unfold step_C. cbn [p_C set_now]. rewrite HC. unfold is_lost. cbn [p_lost set_now]. rewrite L.
        discriminate.
      * destruct P as [_ P]. now apply P.
Qed.
Lemma Timed_tick st d : may_pass X cfg A st d -> Timed st -> Timed (set_now (p_now st + d) st).
Proof.
  intros P [C U]. split; [now apply tick_C|]. unfold Uw in *. cbn [p_users set_now p_now].
  destruct (nth_error (p_users st) i) as [[pc c]|] eqn:Hi; [|exact U].
  assert (Z : forall l x, (l = LT Go \/ l = LC Go \/ l = LC Timeout \/ l = LUser i Go \/ l = LUser i Timeout) ->
     step X cfg (set_now (p_now st + x) st) l <> None -> d <= x).
  { intros l x Hl. apply (ready_no_tick st d l); [exact P|].
    destruct Hl as [Q|[Q|[Q|[Q|Q]]]]; [auto|auto|auto|right; right; right; left|right; right; right; right]; eauto. }
  assert (Zu : forall x, step_user X cfg (set_now (p_now st + x) st) i Go <> None -> d <= x)
    by (intros x; apply (Z (LUser i Go)); tauto).
  assert (Zt : forall x, step_user X cfg (set_now (p_now st + x) st) i Timeout <> None -> d <= x)
    by (intros x; apply (Z (LUser i Timeout)); tauto).
  unfold step_user in Zu, Zt. cbn [p_users set_now] in Zu, Zt. rewrite Hi in Zu, Zt.
  assert (Cn : c = true -> (forall r, pc <> UDone r) -> d = 0).
  { intros -> Hd. assert (d <= 0); [|lia]. apply (Zu 0). destruct pc; try discriminate. now destruct (Hd r). }
  assert (Te : Tend st -> (T_done st = true -> d = 0) -> d = 0).
  { intros [D|[D1 D2]] Dd; [auto|]. destruct (T_done st) eqn:D; [auto|]. assert (d <= 0); [|lia].
    apply (Z (LT Go) 0); [tauto|]. cbn [step]. unfold step_T. cbn [p_T p_Tcancel set_now]. rewrite D2.
    unfold T_done in D. unfold T_exists in D1. destruct (p_T st); discriminate. }
  destruct pc; try contradiction; cbn [step_call] in Zu, Zt.
  - destruct c0; try contradiction. assert (d <= 0); [|lia]. apply (Zu 0). destruct c; discriminate.
  - destruct U as [-> U]. split; [reflexivity|]. destruct c; [rewrite Cn by easy; lia|].
    assert (d <= t0 + T - p_now st); [|lia]. apply Zt. unfold step_call. cbn [expired p_now set_now].
    rewrite (proj2 (N.leb_le _ _)) by lia. discriminate.
  - destruct U as [-> U]. split; [reflexivity|]. destruct c; [rewrite Cn by easy; lia|].
    assert (d <= t0 + T - p_now st); [|lia]. apply Zt. unfold step_call. cbn [expired p_now set_now].
    rewrite (proj2 (N.leb_le _ _)) by lia. discriminate.
  - destruct U as (U1 & dd & -> & U2 & U3). split; [exact U1|]. exists dd. split; [reflexivity|].
    destruct c; [rewrite Cn by easy; lia|].
    assert (d <= dd - p_now st); [|lia]. apply Zt. unfold step_call. cbn [expired p_now set_now].
    rewrite (proj2 (N.leb_le _ _)) by lia. discriminate.
  - destruct U as [U1 U2]. split; [exact U1|]. rewrite Te; [lia|exact U1|]. intros D.
    destruct c; [now apply Cn|]. assert (d <= 0); [|lia]. apply Zu. unfold step_call.
    change (T_done (set_now (p_now st + 0) st)) with (T_done st). rewrite D. discriminate.
  - destruct U as [U1 U2]. split; [exact U1|]. unfold Late in *. cbn [p_C p_now set_now].
    assert (C1 : p_C st = CStart \/ p_C st = CWaitT -> d = 0).
    { intros HC. apply Te; [exact U1|]. intros D. assert (d <= 0); [|lia]. apply (Z (LC Go)); [tauto|].
      cbn [step]. unfold step_C. cbn [p_C p_T set_now]. unfold T_done in D.
      destruct HC as [-> | ->]; [discriminate|]. destruct (p_T st) as [| | | | | | |[]]; discriminate. }
    destruct (p_C st) as [| | |[?|]|[?|]|[?|] ?|[?|] ?|e] eqn:HC; try contradiction; try exact U2;
      try (rewrite C1 by tauto; lia).
    destruct c; [rewrite Cn by easy; lia|]. assert (d = 0); [|subst d; lia]. assert (d <= 0); [|lia].
    apply Zu. unfold step_call. cbn [p_C set_now]. rewrite HC. destruct e; discriminate.
  - exact U.
Qed.

(** Steps *)
Lemma deadline_upto st : deadline st (c_close_timeout cfg) = Some (p_now st + T).
Proof. unfold deadline. now rewrite timeout. Qed.

(* the stages of close_connection *)
Lemma close_tcp_timed st e : Timed st ->
  (forall pc c, nth_error (p_users st) i = Some (pc, c) -> forall t, pc = UCloseC t -> p_now st <= t0 + (waits - 1) * T) ->
  Timed (close_tcp cfg st e).
Proof.
  intros [[C0 C] U] L.
  assert (W : 4 <= waits) by (unfold waits; destruct (c_client cfg); lia).
  assert (W' : waits * T = (waits - 1) * T + T) by (rewrite N.mul_sub_distr_r; nia).
  assert (D : forall v, (v = CDone e \/ v = CLost3 (Some (p_now st + T)) e) -> forall st', p_C st' = v ->
     p_now st' = p_now st -> p_T st' = p_T st -> p_users st' = p_users st -> p_Tcancel st' = p_Tcancel st -> Timed st').
  { intros v Hv st' E1 E2 E3 E4 E5. split; [split|].
    - rewrite E1. destruct Hv as [-> | ->]; discriminate.
    - rewrite E1. destruct Hv as [-> | ->]; [exact Logic.I|]. exists (p_now st + T). rewrite E2. split; [reflexivity|]. lia.
    - unfold Uw in *. unfold Tend, T_done, T_exists in *. rewrite E2, E3, E4, E5.
      destruct (nth_error (p_users st) i) as [[pc c]|] eqn:Hi; [|exact U]. destruct pc; try exact U.
      destruct U as [U1 U2]. split; [exact U1|]. specialize (L _ _ eq_refl _ eq_refl). unfold Late. rewrite E1, E2.
      destruct Hv as [-> | ->]; lia. }
  unfold close_tcp. destruct (_ && _).
  - eapply D; [left; reflexivity|..]; reflexivity.
  - destruct (is_lost _).
    + eapply D; [left; reflexivity|..]; reflexivity.
    + eapply D; [right; reflexivity|..]; try reflexivity. cbn [p_C set_C]. now rewrite deadline_upto.
Qed.
Lemma half_close_timed st : Timed st ->
  (forall pc c, nth_error (p_users st) i = Some (pc, c) -> forall t, pc = UCloseC t -> p_now st <= t0 + (waits - 2) * T) ->
  Timed (half_close cfg st).
Proof.
  intros H L.
  assert (W : 4 <= waits) by (unfold waits; destruct (c_client cfg); lia).
  assert (W' : (waits - 1) * T = (waits - 2) * T + T) by (rewrite !N.mul_sub_distr_r; nia).
  assert (L' : forall pc c, nth_error (p_users st) i = Some (pc, c) -> forall t, pc = UCloseC t ->
     p_now st <= t0 + (waits - 1) * T) by (intros pc c Hi t Ht; specialize (L pc c Hi t Ht); lia).
  unfold half_close. destruct (c_can_write_eof cfg); [|now apply close_tcp_timed].
  change (is_lost (set_eof_written true st)) with (is_lost st).
  destruct (is_lost st); [apply close_tcp_timed; [|exact L']|].
  - exact H.
  - rewrite deadline_upto. destruct H as [[C0 C] U]. split; [split|].
    + intros _. discriminate.
    + cbn [p_C set_C]. exists (p_now st + T). split; [reflexivity|]. cbn [p_now set_C set_eof_written]. lia.
    + unfold Uw in *. cbn [p_users set_C set_eof_written].
      destruct (nth_error (p_users st) i) as [[pc c]|] eqn:Hi; [|exact U]. destruct pc; try exact U.
      destruct U as [U1 U2]. split; [exact U1|]. specialize (L _ _ eq_refl _ eq_refl).
      unfold Late. cbn [p_C set_C p_now set_eof_written]. lia.
Qed.
Lemma after_transfer_timed st : Timed st ->
  (forall pc c, nth_error (p_users st) i = Some (pc, c) -> forall t, pc = UCloseC t -> p_now st <= t0 + 2 * T) ->
  Timed (after_transfer cfg st).
Proof.
  intros H L.
  assert (W : 4 <= waits) by (unfold waits; destruct (c_client cfg); lia).
  assert (W' : 2 * T <= (waits - 2) * T) by (apply N.mul_le_mono_r; lia).
  assert (L' : forall pc c, nth_error (p_users st) i = Some (pc, c) -> forall t, pc = UCloseC t ->
     p_now st <= t0 + (waits - 2) * T) by (intros pc c Hi t Ht; specialize (L pc c Hi t Ht); lia).
  assert (W'' : (waits - 2) * T <= (waits - 1) * T) by (apply N.mul_le_mono_r; lia).
  assert (L'' : forall pc c, nth_error (p_users st) i = Some (pc, c) -> forall t, pc = UCloseC t ->
     p_now st <= t0 + (waits - 1) * T) by (intros pc c Hi t Ht; specialize (L pc c Hi t Ht); lia).
  unfold after_transfer.
  assert (G : forall st1, (st1 = st \/ exists v, st1 = set_Kcancel v st) ->
    Timed (if c_client cfg && T_exists st1
           then if is_lost st1 then close_tcp cfg st1 None else set_C (CLost1 (deadline st1 (c_close_timeout cfg))) st1
           else half_close cfg st1)).
  { intros st1 Hst. assert (H1 : Timed st1) by (destruct Hst as [-> |(v & ->)]; exact H).
    assert (U1 : p_users st1 = p_users st) by (destruct Hst as [-> |(v & ->)]; reflexivity).
    assert (N1 : p_now st1 = p_now st) by (destruct Hst as [-> |(v & ->)]; reflexivity).
    rewrite <- U1, <- N1 in L, L', L''. clear Hst H U1 N1 st. rename st1 into st. rename H1 into H.
    destruct (c_client cfg && _) eqn:Q; [|now apply half_close_timed].
    destruct (is_lost st); [now apply close_tcp_timed|]. apply andb_prop in Q as [Q _].
    rewrite deadline_upto. destruct H as [[C0 C] U]. split; [split|].
    + intros _. discriminate.
    + cbn [p_C set_C]. split; [exact Q|]. exists (p_now st + T). split; [reflexivity|]. cbn [p_now set_C]. lia.
    + unfold Uw in *. cbn [p_users set_C].
      destruct (nth_error (p_users st) i) as [[pc c]|] eqn:Hi; [|exact U]. destruct pc; try exact U.
      destruct U as [U1 U2]. split; [exact U1|]. specialize (L _ _ eq_refl _ eq_refl).
      unfold Late. cbn [p_C set_C p_now]. lia. }
  destruct (p_K st); apply G; [now left|right; now exists true..].
Qed.
Lemma step_C_timed st a st' : step_C cfg st a = Some st' -> Timed st -> Timed st'.
Proof.
  intros H HT. pose proof HT as [[C0 C] U].
  assert (W : 4 <= waits) by (unfold waits; destruct (c_client cfg); lia).
  assert (W' : 2 * T <= (waits - 1) * T) by (apply N.mul_le_mono_r; lia).
  assert (Wt : waits * T = (waits - 1) * T + T) by (rewrite N.mul_sub_distr_r; nia).
  assert (L : forall pc c, nth_error (p_users st) i = Some (pc, c) -> forall t, pc = UCloseC t -> Late st).
  { intros pc c Hi t ->. unfold Uw in U. rewrite Hi in U. tauto. }
  (* close_connection ends *)
  assert (D : forall e st1, p_C st1 = CDone e -> p_now st1 = p_now st -> p_T st1 = p_T st -> p_users st1 = p_users st ->
     p_Tcancel st1 = p_Tcancel st -> Timed st1).
  { intros e st1 E1 E2 E3 E4 E5. split; [split|].
    - rewrite E1. discriminate.
    - rewrite E1. exact Logic.I.
    - unfold Uw in *. unfold Tend, T_done, T_exists in *. rewrite E2, E3, E4, E5.
      destruct (nth_error (p_users st) i) as [[pc c]|] eqn:Hi; [|exact U]. destruct pc; try exact U.
      destruct U as [U1 U2]. split; [exact U1|]. unfold Late at 1. rewrite E1, E2.
      apply Late_bound; [now split|exact U2]. }
  unfold step_C in H. destruct (p_C st) as [| | |d|d|d e|d e|e] eqn:HC; destruct a; try discriminate.
  - destruct (T_exists st) eqn:Te; apply some_inj in H as <-.
    + split; [split|].
      * intros _. discriminate.
      * exact Logic.I.
      * unfold Uw in *. cbn [p_users set_C].
        destruct (nth_error (p_users st) i) as [[pc c]|] eqn:Hi; [|exact U]. destruct pc; try exact U.
        destruct U as [U1 U2]. split; [exact U1|]. unfold Late in *. cbn [p_C set_C p_now]. now rewrite HC in U2.
    + apply after_transfer_timed; [exact HT|]. intros pc c Hi t Ht. specialize (L pc c Hi t Ht).
      unfold Late in L. now rewrite HC in L.
  - assert (L2 : forall pc c, nth_error (p_users st) i = Some (pc, c) -> forall t, pc = UCloseC t -> p_now st <= t0 + 2 * T).
    { intros pc c Hi t Ht. specialize (L pc c Hi t Ht). unfold Late in L. now rewrite HC in L. }
    destruct (p_T st) as [| | | | | | |[e|]]; try discriminate; apply some_inj in H as <-.
    + apply close_tcp_timed; [exact HT|]. intros pc c Hi t Ht. specialize (L2 pc c Hi t Ht). lia.
    + now apply after_transfer_timed.
  - destruct (is_lost st) eqn:Ls; [|discriminate]. apply some_inj in H as <-.
    unfold close_tcp. rewrite Ls. change (is_lost (set_closing true st)) with (is_lost st). rewrite Ls.
    destruct (_ && _); (eapply D; reflexivity).
  - destruct (expired st d) eqn:Ex; [|discriminate]. apply some_inj in H as <-.
    destruct (is_lost st) eqn:Ls.
    + unfold close_tcp. rewrite Ls. change (is_lost (set_closing true st)) with (is_lost st). rewrite Ls.
      destruct (_ && _); (eapply D; reflexivity).
    + apply half_close_timed; [exact HT|]. intros pc c Hi t Ht. specialize (L pc c Hi t Ht).
      unfold Late in L. rewrite HC in L. destruct C as (Cl & dd & -> & C2 & C3). unfold waits. rewrite Cl. lia.
  - destruct (is_lost st) eqn:Ls; [|discriminate]. apply some_inj in H as <-.
    unfold close_tcp. rewrite Ls. change (is_lost (set_closing true st)) with (is_lost st). rewrite Ls.
    destruct (_ && _); (eapply D; reflexivity).
  - destruct (expired st d) eqn:Ex; [|discriminate]. apply some_inj in H as <-.
    apply close_tcp_timed; [exact HT|]. intros pc c Hi t Ht. specialize (L pc c Hi t Ht).
    unfold Late in L. rewrite HC in L. destruct C as (dd & -> & C2 & C3). lia.
  - destruct (is_lost st) eqn:Ls; [|discriminate]. apply some_inj in H as <-. eapply D; reflexivity.
  - destruct (expired st d) eqn:Ex; [|discriminate].
    destruct (is_lost st) eqn:Ls; apply some_inj in H as <-; [eapply D; reflexivity|].
    rewrite deadline_upto. split; [split|].
    + intros _. discriminate.
    + cbn [p_C set_C]. split.
      * exists (p_now st + T). split; [reflexivity|]. cbn [p_now set_C set_aborted set_closing]. lia.
      * exists (p_now st). split; [reflexivity|]. split; [reflexivity|]. cbn [p_now set_C set_aborted set_closing]. lia.
    + unfold Uw in *. cbn [p_users set_C set_aborted set_closing].
      destruct (nth_error (p_users st) i) as [[pc c]|] eqn:Hi; [|exact U]. destruct pc; try exact U.
      destruct U as [U1 U2]. split; [exact U1|]. unfold Late in *. rewrite HC in U2.
      cbn [p_C set_C p_now set_aborted set_closing]. destruct C as (dd & -> & C2 & C3). lia.
  - destruct (is_lost st) eqn:Ls; [|discriminate]. apply some_inj in H as <-. eapply D; reflexivity.
  - destruct (expired st d) eqn:Ex; [|discriminate]. apply some_inj in H as <-. eapply D; reflexivity.
Qed.

(* the call itself *)
Lemma Timed_user st st1 pc : Timed st -> (i < length (p_users st))%nat -> p_users st1 = replace i (pc, false) (p_users st) ->
  p_now st1 = p_now st -> p_aborted st1 = p_aborted st ->
  (p_C st1 = p_C st \/ p_C st = CNone /\ p_C st1 = CStart) -> p_T st1 = p_T st ->
  match pc with
  | UStart (CallClose _ _) => p_now st = t0
  | UCloseWrite d t | UCloseEnsure d t => d = Some (t0 + T) /\ p_now st <= t0 + T
  | UCloseT d t => T_exists st = true /\ exists dd, d = Some dd /\ p_now st <= dd /\ dd <= t0 + 2 * T
  | UCloseT2 t => Tend st1 /\ p_now st <= t0 + 2 * T
  | UCloseC t => Tend st1 /\ p_now st <= t0 + 2 * T
  | UDone _ => True
  | _ => False
  end -> Timed st1.
Proof.
  intros [[C0 C] U] Li E1 E2 E3 E4 E5 H.
  assert (W : 4 <= waits) by (unfold waits; destruct (c_client cfg); lia).
  assert (W' : 4 * T <= waits * T) by (apply N.mul_le_mono_r; exact W).
  assert (W'' : 3 * T <= (waits - 1) * T) by (apply N.mul_le_mono_r; lia).
  assert (Q : T_exists st1 = T_exists st) by (now apply T_exists_same).
  assert (C1 : Cw st1).
  { split.
    - rewrite Q. intros R. specialize (C0 R). destruct E4 as [-> |[E4 _]]; [exact C0|contradiction].
    - destruct E4 as [-> |[_ ->]]; [|exact Logic.I]. unfold upto. now rewrite E2, E3. }
  split; [exact C1|].
  unfold Uw. rewrite E1, nth_error_replace_eq by exact Li. rewrite E2, Q.
  destruct pc; try exact H. destruct H as [H1 H2]. split; [exact H1|].
  assert (Te : T_exists st1 = true) by (destruct H1 as [H1|[H1 _]]; [now apply done_exists|exact H1]).
  destruct C1 as [C1 C2]. specialize (C1 Te). unfold Late, upto in *. rewrite E2 in *.
  destruct (p_C st1) as [| | |d|d|d e|d e|e]; try contradiction; try exact H2.
  - destruct C2 as (_ & dd & -> & C3 & C4). lia.
  - destruct C2 as (dd & -> & C3 & C4). lia.
  - destruct C2 as (dd & -> & C3 & C4). lia.
  - destruct C2 as ((dd & -> & C3 & C4) & _). lia.
  - lia.
Qed.
Lemma Timed_raise st st1 r : Timed st -> (i < length (p_users st))%nat -> p_users st1 = p_users st -> ck st st1 -> p_T st1 = p_T st -> Timed (return_ i r st1).
Proof.
  intros H Li E1 (K1 & K2 & K3 & K4) E2. apply (Timed_user st _ (UDone r)); auto. cbn [p_users return_ set_user set_users].
  now rewrite E1.
Qed.
Lemma close_wait_T_timed st st1 t : Timed st -> (i < length (p_users st))%nat -> p_users st1 = p_users st -> ck st st1 -> p_T st1 = p_T st ->
  p_now st <= t0 + T -> Timed (close_wait_T cfg st1 i t).
Proof.
  intros H Li E1 K E2 L. unfold close_wait_T. rewrite (T_exists_same _ _ E2).
  destruct (T_exists st) eqn:Te; [|now apply (Timed_raise st)].
  destruct K as (K1 & K2 & K3 & K4). rewrite deadline_upto.
  eapply (Timed_user st); try eassumption.
  - cbn [p_users set_user set_users]. rewrite E1. reflexivity.
  - split; [exact Te|]. exists (p_now st1 + T). split; [reflexivity|]. rewrite K1. lia.
Qed.
Lemma fail_users st code st' e : fail_connection X cfg st code = (st', e) -> p_users st' = p_users st /\ p_T st' = p_T st.
Proof. intros H. shapes. now split. Qed.
Lemma close_timed_out_timed st t : Timed st -> (i < length (p_users st))%nat -> p_now st <= t0 + T -> Timed (close_timed_out X cfg st i t).
Proof.
  intros H Li L. unfold close_timed_out. destruct (fail_connection _ _ _ _) as [st2 e2] eqn:F.
  pose proof (fail_ck _ _ _ _ F) as K. apply fail_users in F as [F1 F2]. now apply (close_wait_T_timed st).
Qed.
Lemma cancel_T_Tend st : T_exists st = true -> Tend (cancel_T st).
Proof.
  intros Te. unfold cancel_T. rewrite Te. cbn [andb]. destruct (T_done st) eqn:D; cbn [negb]; [now left|].
  right. now split.
Qed.
Lemma step_user_timed st a st' : step_user X cfg st i a = Some st' -> Timed st -> Timed st'.
Proof.
  intros H HT. pose proof HT as [C U]. unfold step_user in H. unfold Uw in U.
  destruct (nth_error (p_users st) i) as [[pc c]|] eqn:Hi; [|discriminate].
  assert (Li : (i < length (p_users st))%nat) by (apply nth_error_Some; congruence).
  assert (Rs : forall r, Timed (return_ i r st)) by (intros r; apply (Timed_raise st); auto using ck_refl).
  assert (Cm : forall t, T_exists st = true -> p_now st <= t0 + 2 * T -> Timed (set_user i (UCloseT2 t) (cancel_T st))).
  { intros t Te L. pose proof (cancel_T_ck st) as (K1 & K2 & K3 & K4). destruct (cancel_T_shape st) as (b & Sh).
    eapply (Timed_user st); try eassumption.
    - cbn [p_users set_user set_users]. rewrite Sh. reflexivity.
    - cbn [p_T set_user set_users]. now rewrite Sh.
    - split; [|exact L]. now apply cancel_T_Tend. }
  assert (Cc : forall t, Tend st -> p_now st <= t0 + 2 * T -> Timed (set_user i (UCloseC t) st)).
  { intros t Te L. eapply (Timed_user st); try reflexivity; [exact HT|exact Li|now left|]. now split. }
  destruct c.
  - destruct pc; try contradiction; destruct a; try discriminate; apply some_inj in H as <-; cbn [cancel_call];
      try apply Rs.
    + destruct U as (U1 & dd & _ & U2 & U3). apply Cm; [exact U1|lia].
    + now apply Cc.
  - assert (Dr : forall d t, p_now st <= t0 + T -> d = Some (t0 + T) -> match after_drain X cfg st a with
                | Some (st, EOk) => Some (close_wait_T cfg st i t)
                | Some (st, ERaise e) => Some (raise_ i e st)
                | Some (st, EWait) => Some (set_user i (UCloseEnsure d t) st)
                | None => None
                end = Some st' -> Timed st').
    { intros d t L Hd Q. destruct (after_drain _ _ _ _) as [[st2 r]|] eqn:D; [|discriminate].
      pose proof (after_drain_ck _ _ _ _ D) as K.
      assert (E1 : p_users st2 = p_users st /\ p_T st2 = p_T st)
        by (apply after_drain_shape in D as (? & ? & ? & ? & ? & ->); now split).
      destruct E1 as [E1 E2]. destruct r; apply some_inj in Q as <-.
      - now apply (close_wait_T_timed st).
      - now apply (Timed_raise st).
      - destruct K as (K1 & K2 & K3 & K4). eapply (Timed_user st); try eassumption.
        + cbn [p_users set_user set_users]. rewrite E1. reflexivity.
        + now split. }
    destruct pc; try contradiction; cbn [step_call] in H.
    + destruct c; try contradiction. unfold step_call, start_call in H. destruct a; try discriminate.
      apply some_inj in H as <-. unfold close_start. destruct (serialize_close _ _); [|apply Rs].
      assert (G : Timed match write_close_frame X cfg st (ByCall i) a with
         | (st2, Some (Some e)) => raise_ i (PyExn e) st2
         | (st2, Some None) => set_user i (UCloseWrite (deadline st2 (c_close_timeout cfg)) (p_now st2)) st2
         | (st2, None) => close_wait_T cfg st2 i (p_now st2)
         end).
      { destruct (write_close_frame _ _ _ _ _) as [st2 r] eqn:Wc. pose proof (write_close_frame_ck _ _ _ _ _ Wc) as K.
        assert (E1 : p_users st2 = p_users st /\ p_T st2 = p_T st) by (shapes; now split).
        destruct E1 as [E1 E2]. destruct r as [[e|]|].
        - now apply (Timed_raise st).
        - rewrite deadline_upto. destruct K as (K1 & K2 & K3 & K4). eapply (Timed_user st); try eassumption.
          + cbn [p_users set_user set_users]. rewrite E1. reflexivity.
          + rewrite K1, U. split; [reflexivity|lia].
        - apply (close_wait_T_timed st); auto. lia. }
      assert (G' : Timed (close_timed_out X cfg st i (p_now st))) by (apply close_timed_out_timed; [exact HT|exact Li|lia]).
      destruct (c_close_timeout cfg) as [[|q]|]; [exact G'|exact G|exact G].
    + destruct U as [U1 U2]. unfold step_call in H. destruct a; try (now apply (Dr d t1)).
      destruct (expired st d); [|discriminate]. apply some_inj in H as <-. now apply close_timed_out_timed.
    + destruct U as [U1 U2]. unfold step_call in H. destruct a; try discriminate.
      * destruct (ensure_open_end st); [|discriminate]. apply some_inj in H as <-. apply Rs.
      * destruct (expired st d); [|discriminate]. apply some_inj in H as <-. now apply close_timed_out_timed.
    + destruct U as (U1 & dd & -> & U2 & U3). unfold step_call in H. destruct a; try discriminate.
      * destruct (p_T st) as [| | | | | | |[e|]] eqn:Ht; try discriminate; apply some_inj in H as <-; [apply Rs|].
        apply Cc; [|lia]. left. unfold T_done. now rewrite Ht.
      * destruct (expired _ _); [|discriminate]. apply some_inj in H as <-. apply Cm; [exact U1|lia].
    + destruct U as [U1 U2]. unfold step_call in H. destruct a; try discriminate.
      destruct (T_done st) eqn:D; [|discriminate]. apply some_inj in H as <-. now apply Cc.
    + unfold step_call in H. destruct a; try discriminate.
      destruct (p_C st) as [| | | | | | |[e|]]; try discriminate; apply some_inj in H as <-; apply Rs.
    + discriminate.
Qed.

Lemma Timed_step st l st' : Waiters st -> (forall d, l = LTick d -> may_pass X cfg A st d) ->
  (forall c, l = LCall c -> i = length (p_users st) -> (exists code reason, c = CallClose code reason) /\ p_now st = t0) ->
  step X cfg st l = Some st' -> Timed st -> Timed st'.
Proof.
  intros W P I H HT.
  assert (Sm : p_users st' = p_users st -> ck st st' -> p_T st' = p_T st -> Timed st').
  { intros E1 K E2. apply (Timed_ck st); auto; rewrite E1; eauto. }
  pose proof HT as [[C0 C] U].
  destruct l; cbn [step] in H.
  - destruct (p_state st); try discriminate. destruct (p_C st) eqn:HC; try discriminate.
    apply some_inj in H as <-.
    assert (Te : T_exists st = false) by (destruct (T_exists st); [now destruct C0|reflexivity]).
    split; [split; [discriminate|exact Logic.I]|]. unfold Uw in *. cbn [p_users connection_open set_C set_K set_T set_state p_now].
    destruct (nth_error (p_users st) i) as [[pc c]|]; [|exact U]. destruct pc; try exact U.
    + destruct U as [U _]. congruence.
    + destruct U as [[U|[U _]] _]; [apply done_exists in U|]; congruence.
    + destruct U as [[U|[U _]] _]; [apply done_exists in U|]; congruence.
  - destruct (fail_connection _ _ _ _) as [st2 e2] eqn:F. apply some_inj in H as <-. cbn [fst] in *.
    pose proof (fail_ck _ _ _ _ F). apply fail_users in F as [F1 F2]. now apply Sm.
  - destruct (r_eof _); [discriminate|]. apply some_inj in H as <-. apply Sm; try reflexivity. ck.
  - destruct (r_eof _); [discriminate|]. apply some_inj in H as <-. apply Sm; try reflexivity. ck.
  - assert (H' : connection_lost st o closing = st') by (destruct (p_state st); try discriminate; now apply some_inj in H).
    destruct (connection_lost_shape st o closing) as (? & ? & ? & ? & ? & Sh). rewrite Sh in H'. subst st'.
    apply Sm; try reflexivity. ck.
  - apply some_inj in H as <-. apply Timed_tick; auto.
  - apply some_inj in H as <-. apply Sm; try reflexivity. ck.
  - apply some_inj in H as <-. destruct (lt_eq_lt_dec i (length (p_users st))) as [[Hi|Hi]|Hi].
    + apply (Timed_ck st); try reflexivity; auto; [ck|..].
      * intros pc c1 Hi'. exists c1. cbn [p_users set_users]. now rewrite nth_error_app1.
      * intros Hi'. apply nth_error_None in Hi'. lia.
    + destruct (I c eq_refl Hi) as ((code & reason & ->) & Q). split; [exact (conj C0 C)|]. unfold Uw.
      cbn [p_users set_users p_now]. rewrite nth_error_app2 by lia. rewrite Hi, Nat.sub_diag. exact Q.
    + apply (Timed_ck st); try reflexivity; auto; [ck|..].
      * intros pc c1 Hi'. assert (Q : nth_error (p_users st) i <> None) by congruence. apply nth_error_Some in Q. lia.
      * intros _. apply nth_error_None. cbn [p_users set_users]. rewrite app_length. cbn [length]. lia.
  - destruct (nth_error (p_users st) i0) as [[pc c]|] eqn:Hj; [|discriminate].
    assert (H' : set_users (replace i0 (pc, true) (p_users st)) st = st')
      by (destruct pc; try discriminate; now apply some_inj in H).
    subst st'. apply (Timed_ck st); try reflexivity; auto; [ck|..]; cbn [p_users set_users].
    + intros pc1 c1 Hi. destruct (Nat.eq_dec i0 i) as [-> |Hn].
      * rewrite nth_error_replace_eq by (apply nth_error_Some; congruence).
        rewrite Hi in Hj. injection Hj as -> _. now exists true.
      * rewrite nth_error_replace_neq by exact Hn. eauto.
    + intros Hi. apply nth_error_None in Hi. apply nth_error_None. now rewrite length_replace.
  - pose proof (step_T_ck _ _ _ H) as (K1 & K2 & K3 & K4). pose proof (step_T_ends _ _ _ H) as (T1 & T2 & T3 & T4).
    pose proof (LegacyFragments.step_T_gr _ _ _ _ _ H) as (G1 & _).
    apply (Timed_same st); auto.
    + congruence.
    + intros [D|[_ D]]; [congruence|]. left. auto.
    + rewrite G1. eauto.
    + now rewrite G1.
  - pose proof (step_K_ck _ _ _ H) as K. pose proof (LegacyFragments.step_K_gr _ _ _ _ _ H) as (G1 & _).
    apply Sm; auto. now destruct (step_T_alone X cfg st (LK a) st' H ltac:(discriminate) ltac:(discriminate)).
  - now apply (step_C_timed st a).
  - destruct (Nat.eq_dec i0 i) as [-> |Hn]; [now apply (step_user_timed st a)|].
    pose proof (step_user_ck _ _ _ _ H) as K. pose proof (step_user_still _ _ _ _ _ _ H) as (E1 & _).
    assert (Eu : nth_error (p_users st') i = nth_error (p_users st) i).
    { pose proof (step_user_uq X cfg st i0 a st' W H) as [[pc1 ? ? ? Eu ? ?|m ? ? ? Eu ?] _]; rewrite Eu;
        now rewrite nth_error_replace_neq by exact Hn. }
    apply (Timed_ck st); auto; rewrite Eu; eauto.
Qed.

Lemma step_length st l st' : Waiters st -> step X cfg st l = Some st' ->
  length (p_users st') = length (p_users st) \/
  exists c, l = LCall c /\ p_users st' = p_users st ++ [(UStart c, false)].
Proof.
  intros W H. destruct l; cbn [step] in H; try (left; try congruence; fail).
  - left. destruct (p_state st); try discriminate. destruct (p_C st); try discriminate. now apply some_inj in H as <-.
  - left. destruct (fail_connection _ _ _ _) as [st2 e2] eqn:F. apply some_inj in H as <-. cbn [fst].
    apply fail_users in F as [-> _]. reflexivity.
  - left. destruct (r_eof _); [discriminate|]. now apply some_inj in H as <-.
  - left. destruct (r_eof _); [discriminate|]. now apply some_inj in H as <-.
  - left. assert (H' : connection_lost st o closing = st') by (destruct (p_state st); try discriminate; now apply some_inj in H).
    destruct (connection_lost_shape st o closing) as (? & ? & ? & ? & ? & Sh). rewrite Sh in H'. now subst st'.
  - left. now apply some_inj in H as <-.
  - left. now apply some_inj in H as <-.
  - right. exists c. split; [reflexivity|]. now apply some_inj in H as <-.
  - left. destruct (nth_error (p_users st) i0) as [[pc c]|] eqn:Hj; [|discriminate].
    assert (H' : set_users (replace i0 (pc, true) (p_users st)) st = st')
      by (destruct pc; try discriminate; now apply some_inj in H).
    subst st'. cbn [p_users set_users]. apply length_replace.
  - left. pose proof (LegacyFragments.step_T_gr _ _ _ _ _ H) as (G1 & _). now rewrite G1.
  - left. pose proof (LegacyFragments.step_K_gr _ _ _ _ _ H) as (G1 & _). now rewrite G1.
  - left. apply step_C_shape in H as (? & ? & ? & ? & ? & ->). reflexivity.
  - left. pose proof (step_user_uq X cfg st i0 a st' W H) as [[pc1 ? ? ? Eu ? ?|m ? ? ? Eu ?] _]; rewrite Eu; apply length_replace.
Qed.
Lemma exec_length ls st st' : Base st -> Recv cfg st -> exec X cfg st ls = Some st' ->
  (length (p_users st) <= length (p_users st'))%nat.
Proof.
  revert st. induction ls as [|l ls IH]; cbn [exec]; intros st B R H.
  - apply some_inj in H as <-. lia.
  - destruct (step X cfg st l) as [st1|] eqn:S1; [|discriminate].
    assert (L : (length (p_users st) <= length (p_users st1))%nat).
    { destruct R as (W & _). destruct (step_length _ _ _ W S1) as [->|(c & _ & ->)]; [lia|].
      rewrite app_length. lia. }
    specialize (IH st1 ltac:(eapply Base_step; eauto) ltac:(eapply Recv_step; eauto) H). lia.
Qed.

Lemma Timed_before st ls st' : Base st -> Recv cfg st -> punctual X cfg A st ls -> exec X cfg st ls = Some st' ->
  i = length (p_users st') -> Timed st -> Timed st'.
Proof.
  revert st. induction ls as [|l ls IH]; cbn [exec punctual]; intros st B R P H Hi HT.
  - now apply some_inj in H as <-.
  - destruct P as [P1 P2]. destruct (step X cfg st l) as [st1|] eqn:S1; [|discriminate].
    assert (B1 : Base st1) by exact (Base_step X cfg st l st1 B S1).
    assert (R1 : Recv cfg st1) by exact (Recv_step X cfg st l st1 B R S1).
    apply (IH st1); auto. destruct R as (W & _). apply (Timed_step st l); auto. intros c -> Q. exfalso.
    pose proof (exec_length _ _ _ B1 R1 H) as L. cbn [step] in S1. apply some_inj in S1 as <-.
    cbn [p_users set_users] in L. rewrite app_length in L. cbn [length] in L. lia.
Qed.
Lemma Timed_after st ls st' : Base st -> Recv cfg st -> punctual X cfg A st ls -> exec X cfg st ls = Some st' ->
  (i < length (p_users st))%nat -> Timed st -> Timed st'.
Proof.
  revert st. induction ls as [|l ls IH]; cbn [exec punctual]; intros st B R P H Hi HT.
  - now apply some_inj in H as <-.
  - destruct P as [P1 P2]. destruct (step X cfg st l) as [st1|] eqn:S1; [|discriminate].
    assert (B1 : Base st1) by exact (Base_step X cfg st l st1 B S1).
    assert (R1 : Recv cfg st1) by exact (Recv_step X cfg st l st1 B R S1).
    pose proof R as (W & _).
    assert (L : (length (p_users st) <= length (p_users st1))%nat).
    { destruct (step_length _ _ _ W S1) as [->|(c & _ & ->)]; [lia|]. rewrite app_length. lia. }
    apply (IH st1); auto; [lia|]. apply (Timed_step st l); auto. intros c -> Q. lia.
Qed.
End Bound.

Lemma punctual_app A st ls1 ls2 st1 : exec X cfg st ls1 = Some st1 ->
  (punctual X cfg A st (ls1 ++ ls2) <-> punctual X cfg A st ls1 /\ punctual X cfg A st1 ls2).
Proof.
  revert st. induction ls1 as [|l ls1 IH]; cbn [exec punctual app]; intros st H.
  - apply some_inj in H as <-. tauto.
  - destruct (step X cfg st l) as [st2|] eqn:S1; [|discriminate]. rewrite (IH st2 H). tauto.
Qed.
End Timing.
