(* What keepalive_ping does, and how long it waits. *)
From Coq Require FinFun.
From Verif Require Import Base.Prelude Base.PreludeFacts Model.Streams Model.Frames
  Model.LegacyFraming Model.LegacyProtocol Spec.Asyncio Spec.AsyncioKeepalive Proofs.FramesFacts Proofs.LegacyPrims
  Proofs.LegacyShapes Proofs.LegacyUsers Proofs.LegacyFields Proofs.LegacyClose Proofs.LegacyQueue
  Proofs.LegacyMessages Proofs.LegacyFragments Proofs.LegacyTiming.
Local Open Scope N_scope.

Section Keepalive.
Context {E : Type} (X : ext_ops E) (cfg : config).
Implicit Type st : conn E.

(* The clock and keepalive_ping's progress don't change *)
Definition kk st st' : Prop :=
  p_now st' = p_now st /\ p_K st' = p_K st /\ p_Kcancel st' = p_Kcancel st.

Lemma kk_refl st : kk st st.
Proof. repeat split. Qed.
Lemma kk_trans st st1 st2 : kk st st1 -> kk st1 st2 -> kk st st2.
Proof. intros (A1 & A2 & A3) (B1 & B2 & B3). split; [congruence|]. split; congruence. Qed.
Ltac kk := match goal with |- forall _, _ => intros; kk | _ => 
  split; [reflexivity|split; [reflexivity|reflexivity]] end.

Lemma cancel_T_kk st : kk st (cancel_T st).
Proof. unfold cancel_T. destruct (_ && _); [|apply kk_refl]. kk. Qed.
Lemma fail_kk st code st' e : fail_connection X cfg st code = (st', e) -> kk st st'.
Proof.
  unfold fail_connection. intros H. eapply kk_trans; [apply cancel_T_kk|].
  revert H. generalize (cancel_T st). clear st. intros st.
  assert (G : forall st2 e2,
    (if negb (code =? 1006)%Z && is_open (p_state st)
     then match serialize_close code [] with
          | Raise e => (st, Some e)
          | Ok data => write X cfg (set_state Closing st) ByFailure (mkframe true CLOSE data)
          end
     else (st, None)) = (st2, e2) -> kk st st2).
  { intros st2 e2. destruct (_ && _); [|intros Q; apply pair_equal_spec in Q as [<- _]; apply kk_refl].
    destruct (serialize_close _ _); [|intros Q; apply pair_equal_spec in Q as [<- _]; apply kk_refl].
    intros Q. shapes. kk. }
  destruct (if _ && _ then _ else _) as [st2 e2] eqn:Q. intros H. eapply kk_trans; [exact (G _ _ eq_refl)|].
  destruct e2; apply pair_equal_spec in H as [<- _]; [apply kk_refl|].
  destruct (p_C st2) eqn:HC; try apply kk_refl.
  kk.
Qed.
Lemma after_drain_kk st a st' r : after_drain X cfg st a = Some (st', r) -> kk st st'.
Proof.
  unfold after_drain. destruct a; try discriminate.
  - intros H. apply some_inj, pair_equal_spec in H as [<- _]. apply kk_refl.
  - destruct (p_lost st) as [l|]; [|discriminate].
    assert (G : (let '(st2, _) := fail_connection X cfg st 1006 in Some (st2, ensure_open st2)) = Some (st', r) -> kk st st').
    { destruct (fail_connection _ _ _ _) as [st2 e2] eqn:F. intros H.
      apply some_inj, pair_equal_spec in H as [<- _]. now apply fail_kk in F. }
    destruct l as [[]|]; destruct o; try discriminate; try exact G;
      intros H; apply some_inj, pair_equal_spec in H as [<- _]; apply kk_refl.
Qed.

Lemma recv_loop_kk st i : kk st (recv_loop st i).
Proof.
  unfold recv_loop. destruct (p_messages st).
  - destruct (T_exists _); kk.
  - change (p_put (set_messages l st)) with (p_put st). destruct (p_put st); [|kk].
    destruct (set_result _ _); kk.
Qed.
Lemma recv_resume_kk st i w : kk st (recv_resume cfg st i w).
Proof.
  unfold recv_resume. destruct (fut_done _).
  - eapply kk_trans; [|apply recv_loop_kk]. kk.
  - destruct (c_legacy_recv cfg); [kk|]. destruct (ensure_open _); [|kk|kk].
    eapply kk_trans; [|apply recv_loop_kk]. kk.
Qed.
Lemma end_fragments_kk st i r : kk st (end_fragments st i r).
Proof. unfold end_fragments. destruct (p_frag st); [|kk]. destruct (set_result _ _); kk. Qed.
Lemma raise_fragments_kk st i e : kk st (raise_fragments X cfg st i e).
Proof.
  unfold raise_fragments.
  destruct (fail_connection X cfg st 1011) as [st2 e2] eqn:F. apply fail_kk in F.
  destruct e; try (eapply kk_trans; [exact F|apply end_fragments_kk]).
  apply end_fragments_kk.
Qed.
Lemma send_item_kk st i op rest d : kk st (send_item X cfg st i op rest d).
Proof.
  unfold send_item. destruct (prepare_data d) as [[op' data]|e]; [|apply raise_fragments_kk].
  destruct (negb _); [apply raise_fragments_kk|].
  destruct (write_frame _ _ _ _ _ _ _ _) as [st2 e] eqn:W. shapes. destruct e.
  - eapply kk_trans; [|apply raise_fragments_kk]. kk.
  - kk.
Qed.
Lemma send_last_kk st i : kk st (send_last X cfg st i).
Proof.
  unfold send_last.
  destruct (write_frame _ _ _ _ _ _ _ _) as [st2 e] eqn:W. shapes. destruct e.
  - eapply kk_trans; [|apply raise_fragments_kk]. kk.
  - kk.
Qed.
Lemma send_next_kk st i op src : kk st (send_next X cfg st i op src).
Proof.
  destruct src as [[|d items] [e|]|]; cbn [send_next];
    [apply raise_fragments_kk|apply send_last_kk|apply send_item_kk|apply send_item_kk|kk].
Qed.
Lemma send_first_kk st i rest d : kk st (send_first X cfg st i rest d).
Proof.
  unfold send_first. destruct (prepare_data d) as [[op data]|e]; [|kk].
  destruct (write_frame _ _ _ _ _ _ _ _) as [st2 e] eqn:W. shapes. destruct e.
  - eapply kk_trans; [|apply raise_fragments_kk]. kk.
  - kk.
Qed.
Lemma send_loop_kk st i m : kk st (send_loop X cfg st i m).
Proof.
  unfold send_loop. destruct (p_frag st); [kk|].
  destruct m as [d| |[|d items] [e|]| |]; try (kk; fail); try apply send_first_kk.
  destruct (prepare_data d) as [[op data]|e]; [|kk].
  destruct (write_frame _ _ _ _ _ _ _ _) as [st2 e] eqn:W. shapes. destruct e; kk.
Qed.
Lemma close_wait_T_kk st i t0 : kk st (close_wait_T cfg st i t0).
Proof. unfold close_wait_T. destruct (T_exists st); kk. Qed.
Lemma close_timed_out_kk st i t0 : kk st (close_timed_out X cfg st i t0).
Proof.
  unfold close_timed_out. destruct (fail_connection _ _ _ _) as [st2 e2] eqn:F. apply fail_kk in F.
  eapply kk_trans; [exact F|apply close_wait_T_kk].
Qed.
Lemma close_start_kk st i code reason : kk st (close_start X cfg st i code reason).
Proof.
  unfold close_start. destruct (serialize_close _ _); [|kk].
  assert (G : kk st
     match write_close_frame X cfg st (ByCall i) a with
     | (st2, Some (Some e)) => raise_ i (PyExn e) st2
     | (st2, Some None) => set_user i (UCloseWrite (deadline st2 (c_close_timeout cfg)) (p_now st2)) st2
     | (st2, None) => close_wait_T cfg st2 i (p_now st2)
     end).
  { destruct (write_close_frame _ _ _ _ _) as [st2 r] eqn:W. shapes.
    destruct r as [[e|]|]; [kk|kk|]. eapply kk_trans; [|apply close_wait_T_kk]. kk. }
  destruct (c_close_timeout cfg) as [[|q]|]; [apply close_timed_out_kk|exact G|exact G].
Qed.
Lemma cancel_call_kk st i pc : kk st (cancel_call X cfg st i pc).
Proof.
  unfold cancel_call. destruct pc; try (kk; fail); try apply raise_fragments_kk.
  - destruct op; [apply raise_fragments_kk|kk].
  - eapply kk_trans; [apply cancel_T_kk|kk].
Qed.

Ltac some_kk H := apply some_inj in H as <-.

Lemma start_call_kk st i c a st' : start_call X cfg st i c a = Some st' -> kk st st'.
Proof.
  unfold start_call. intros H. destruct c; destruct a; try discriminate; try some_kk H.
  - destruct (p_pop st); [kk|apply recv_loop_kk].
  - destruct (ensure_open st); [apply send_loop_kk|kk|kk].
  - apply close_start_kk.
  - destruct (ensure_open st); [|some_kk H; kk|some_kk H; kk]. destruct data as [d|].
    + destruct (prepare_ctrl d); [|some_kk H; kk].
      destruct (has_ping _ _); [some_kk H; kk|].
      destruct (start_ping _ _ _ _ _) as [st2 e] eqn:W. shapes. destruct e; some_kk H; kk.
    + destruct (random_ok _ _); [|discriminate].
      destruct (start_ping _ _ _ _ _) as [st2 e] eqn:W. shapes. destruct e; some_kk H; kk.
  - destruct (ensure_open st); [|kk|kk]. destruct (prepare_ctrl data); [|kk].
    destruct (write_frame _ _ _ _ _ _ _ _) as [st2 e] eqn:W. shapes. destruct e; kk.
  - kk.
Qed.

Lemma step_call_kk st i pc a st' : step_call X cfg st i pc a = Some st' -> kk st st'.
Proof.
  assert (D : forall (k1 : conn E -> conn E) (k2 : conn E -> pexn -> conn E) (k3 : conn E -> conn E),
    (forall s, kk s (k1 s)) -> (forall s e, kk s (k2 s e)) -> (forall s, kk s (k3 s)) ->
    match after_drain X cfg st a with
    | Some (s2, EOk) => Some (k1 s2)
    | Some (s2, ERaise e) => Some (k2 s2 e)
    | Some (s2, EWait) => Some (k3 s2)
    | None => None
    end = Some st' -> kk st st').
  { intros k1 k2 k3 H1 H2 H3 H. destruct (after_drain _ _ _ _) as [[s2 r]|] eqn:Q; [|discriminate].
    apply after_drain_kk in Q.
    destruct r; some_kk H; (eapply kk_trans; [exact Q|first [apply H1|apply H2|apply H3]]). }
  unfold step_call. intros H. destruct pc.
  - eapply start_call_kk; eassumption.
  - destruct a; try discriminate. destruct (_ || _); [|discriminate]. some_kk H. apply recv_resume_kk.
  - destruct a; try discriminate. destruct (fut_done _); [|discriminate]. some_kk H. apply send_loop_kk.
  - destruct a; try discriminate. destruct (ensure_open_end st); [|discriminate]. some_kk H. kk.
  - eapply (D (fun s => return_ i RNone s) (fun s e => raise_ i e s) (fun s => set_user i UEnsure s));
      [kk|kk|kk|exact H].
  - eapply (D (fun s => send_next X cfg s i op rest) (fun s e => raise_fragments X cfg s i e)
             (fun s => set_user i UFragEnsure s));
      [intros; apply send_next_kk|intros; apply raise_fragments_kk|kk|exact H].
  - eapply (D (fun s => end_fragments s i RNone) (fun s e => raise_fragments X cfg s i e)
             (fun s => set_user i UFragEnsure s));
      [intros; apply end_fragments_kk|intros; apply raise_fragments_kk|kk|exact H].
  - destruct a; try discriminate. destruct (ensure_open_end st); [|discriminate]. some_kk H.
    apply raise_fragments_kk.
  - destruct op; destruct a as [| | | | |[]]; try discriminate; some_kk H;
      first [apply send_item_kk|apply send_last_kk|apply raise_fragments_kk
            |apply send_first_kk|kk].
  - eapply (D (fun s => match find_ping s data with
                        | Some w => return_ i (RPing w) s
                        | None => raise_ i (PyExn KeyError) s end) (fun s e => raise_ i e s)
              (fun s => set_user i UEnsure s)); [intros; destruct (find_ping s data); kk|kk|kk|exact H].
  - assert (G : match after_drain X cfg st a with
                | Some (st, EOk) => Some (close_wait_T cfg st i t0)
                | Some (st, ERaise e) => Some (raise_ i e st)
                | Some (st, EWait) => Some (set_user i (UCloseEnsure d t0) st)
                | None => None
                end = Some st' -> kk st st').
    { apply (D (fun s => close_wait_T cfg s i t0) (fun s e => raise_ i e s)
             (fun s => set_user i (UCloseEnsure d t0) s)); [intros; apply close_wait_T_kk|kk|kk]. }
    destruct a; try (now apply G). destruct (expired st d); [|discriminate]. some_kk H.
    apply close_timed_out_kk.
  - destruct a; try discriminate.
    + destruct (ensure_open_end st); [|discriminate]. some_kk H. kk.
    + destruct (expired st d); [|discriminate]. some_kk H. apply close_timed_out_kk.
  - destruct a; try discriminate.
    + destruct (p_T st) as [| | | | | | |[e|]] eqn:HT; try discriminate; some_kk H; kk.
    + destruct (expired st d); [|discriminate]. some_kk H.
      eapply kk_trans; [apply cancel_T_kk|kk].
  - destruct a; try discriminate. destruct (T_done st); [|discriminate]. some_kk H. kk.
  - destruct a; try discriminate.
    destruct (p_C st) as [| | | | | | |[e|]]; try discriminate; some_kk H; kk.
  - destruct a; try discriminate. destruct (is_lost st); [|discriminate]. some_kk H. kk.
  - discriminate.
Qed.
Lemma step_user_kk st i a st' : step_user X cfg st i a = Some st' -> kk st st'.
Proof.
  unfold step_user. destruct (nth_error _ _) as [[pc c]|]; [|discriminate].
  assert (G : step_call X cfg st i pc a = Some st' -> kk st st') by apply step_call_kk.
  assert (G' : match a with Go => Some (cancel_call X cfg st i pc) | _ => None end = Some st' ->
               kk st st').
  { destruct a; try discriminate. intros H'. apply some_inj in H' as <-. apply cancel_call_kk. }
  destruct c; destruct pc; try discriminate; auto.
Qed.


(** Tasks of the connection *)
Lemma write_frame_kk st by_ fin op data expected st' e :
  write_frame X cfg st by_ fin op data expected = (st', e) -> kk st st'.
Proof. intros H. shapes. kk. Qed.
Lemma write_close_frame_kk st by_ data st' e : write_close_frame X cfg st by_ data = (st', e) -> kk st st'.
Proof. intros H. shapes. kk. Qed.
Lemma start_ping_kk st by_ data st' e : start_ping X cfg st by_ data = (st', e) -> kk st st'.
Proof.
  intros H. shapes. kk.
Qed.
Lemma T_raise_kk st e : kk st (T_raise X cfg st e).
Proof.
  unfold T_raise.
  assert (G : forall code, kk st (let '(st2, e') := fail_connection X cfg st code in set_T (TDone e') st2)).
  { intros code. destruct (fail_connection _ _ _ _) as [st2 e2] eqn:F. apply fail_kk in F.
    eapply kk_trans; [exact F|]. kk. }
  destruct e; try apply G. kk.
Qed.
Lemma after_close_kk st c : kk st (after_close X cfg st c).
Proof. unfold after_close. destruct c; try apply T_raise_kk. kk. Qed.
Lemma put_message_kk st m : kk st (put_message X cfg st m).
Proof.
  unfold put_message. destruct (room cfg st); [|kk].
  destruct (p_pop _); [|kk]. destruct (set_result _ _); [kk|].
  eapply kk_trans; [|apply T_raise_kk]. kk.
Qed.
Lemma step_T_kk st a st' : step_T X cfg st a = Some st' -> kk st st'.
Proof.
  intros H. unfold step_T in H.
  destruct (p_T st) as [|c|c|c|c|c|m w|e] eqn:HT; try discriminate; (destruct (p_Tcancel st);
    [destruct a; try discriminate; apply some_inj in H as <-; eapply kk_trans; [|apply T_raise_kk]; kk|]).
  - destruct a; try discriminate. unfold read_frame in H.
    assert (G : match run (legacy_read X (negb (c_client cfg)) (read_limit cfg c)) (p_reader st) (p_exts st) with
        | OSusp _ _ _ => None
        | OFail e r exts => Some (T_raise X cfg (set_reader r (set_exts exts st)) (PyExn e))
        | ODone f r exts =>
          let st := set_in (p_in st ++ [f]) (set_reader r (set_exts exts st)) in
          Some (on_frame X cfg st c f)
        end = Some st' -> kk st st').
    { clear H. destruct (run _ _ _) as [? ? ?|f r ex|e r ex] eqn:Run; cbv zeta; try discriminate; intros H;
        apply some_inj in H as <-; [|eapply kk_trans; [|apply T_raise_kk]; kk].
      set (st1 := set_in _ _).
      apply (kk_trans _ st1); [kk|]. clearbody st1. clear Run HT.
      unfold on_frame.
      assert (D : kk st1 match read_message cfg c f with
             | RMsg m => put_message X cfg st1 m
             | RNext c => set_T (TRead c) st1
             | RExn e => T_raise X cfg st1 (PyExn e)
             end)
        by (destruct (read_message cfg c f); [apply put_message_kk|kk|apply T_raise_kk]).
      destruct (f_opcode f); try exact D.
      - destruct (parse_close _) as [k|]; [|apply T_raise_kk].
        apply (kk_trans _ (set_close (Some k) st1)); [kk|].
        destruct (write_close_frame _ _ _ _ _) as [st2 [[?|]|]] eqn:Wc; apply write_close_frame_kk in Wc;
          (eapply kk_trans; [exact Wc|]); [apply T_raise_kk|kk|apply after_close_kk].
      - destruct (ensure_open _); [|apply T_raise_kk|kk].
        destruct (write_frame _ _ _ _ _ _ _ _) as [st2 [?|]] eqn:Wf; apply write_frame_kk in Wf; try reflexivity;
          (eapply kk_trans; [exact Wf|]); [apply T_raise_kk|kk].
      - destruct (receive_pong_shape st1 (f_data f)) as (? & ? & ->). kk. }
    destruct (p_lost st) as [[o|]|] eqn:L; [|now apply G|now apply G].
    apply some_inj in H as <-. apply T_raise_kk.
  - destruct (after_drain X cfg st a) as [[st2 r]|] eqn:D; [|discriminate]. apply after_drain_kk in D.
    eapply kk_trans; [exact D|].
    destruct r; apply some_inj in H as <-; [kk|apply T_raise_kk|kk].
  - destruct a; try discriminate. destruct (ensure_open_end st); [|discriminate].
    apply some_inj in H as <-. apply T_raise_kk.
  - destruct (after_drain X cfg st a) as [[st2 r]|] eqn:D; [|discriminate]. apply after_drain_kk in D.
    eapply kk_trans; [exact D|].
    destruct r; apply some_inj in H as <-; [apply after_close_kk|
      destruct (is_closed_exn e); [apply after_close_kk|apply T_raise_kk]|kk].
  - destruct a; try discriminate. destruct (ensure_open_end st); [|discriminate].
    apply some_inj in H as <-. destruct (is_closed_exn p); [apply after_close_kk|apply T_raise_kk].
  - destruct a; try discriminate. destruct (fut_done _); [|discriminate]. apply some_inj in H as <-.
    eapply kk_trans; [|apply put_message_kk]. kk.
Qed.


(* step *)
Lemma step_C_K st a st' : step_C cfg st a = Some st' ->
  p_now st' = p_now st /\ p_K st' = p_K st /\ p_pongs st' = p_pongs st /\ p_pings st' = p_pings st /\
  p_state st' = p_state st /\ p_T st' = p_T st.
Proof. intros H. apply step_C_shape in H as (? & ? & ? & ? & ? & ->). repeat split. Qed.
Lemma connection_lost_kk st o closing : kk st (connection_lost st o closing).
Proof. destruct (connection_lost_shape st o closing) as (? & ? & ? & ? & ? & ->). kk. Qed.

Lemma step_K_alone st l st' : step X cfg st l = Some st' -> (forall a, l <> LK a) -> l <> LOpen ->
  p_K st' = p_K st /\ p_now st' = p_now st + (match l with LTick d => d | _ => 0 end) /\
  ((forall a, l <> LC a) -> p_Kcancel st' = p_Kcancel st).
Proof.
  intros H N1 N2.
  assert (G : kk st st' -> p_K st' = p_K st /\ p_now st' = p_now st + 0 /\ ((forall a, l <> LC a) -> p_Kcancel st' = p_Kcancel st)).
  { intros (A & B & C). rewrite N.add_0_r. auto. }
  destruct l; cbn [step] in H; try congruence.
  - apply G. destruct (fail_connection _ _ _ _) as [st2 e2] eqn:F. apply some_inj in H as <-. now apply fail_kk in F.
  - apply G. destruct (r_eof _); [discriminate|]. apply some_inj in H as <-. kk.
  - apply G. destruct (r_eof _); [discriminate|]. apply some_inj in H as <-. kk.
  - apply G. destruct (p_state st); try discriminate; apply some_inj in H as <-; apply connection_lost_kk.
  - apply some_inj in H as <-. repeat split.
  - apply G. apply some_inj in H as <-. kk.
  - apply G. apply some_inj in H as <-. kk.
  - apply G. destruct (nth_error _ _) as [[[] ?]|]; try discriminate; apply some_inj in H as <-; kk.
  - apply G. now apply step_T_kk in H.
  - apply step_C_K in H as (A & B & _). rewrite N.add_0_r. split; [exact B|]. split; [exact A|]. intros Q. now destruct (Q a).
  - apply G. now apply step_user_kk in H.
Qed.

(* The keepalive task isn't cancelled before transfer_data ends. *)
Definition Kinv st : Prop :=
  (p_K st = KNone <-> T_exists st = false) /\ (p_Kcancel st = true -> T_done st = true) /\
  (T_exists st = true -> p_C st <> CNone).

Lemma T_same st st' : p_T st' = p_T st -> T_exists st' = T_exists st /\ T_done st' = T_done st.
Proof. unfold T_exists, T_done. now intros ->. Qed.

Lemma step_T_state st l st' : step X cfg st l = Some st' -> (l = LOpen -> T_exists st = false) ->
  (T_exists st = true -> T_exists st' = true) /\ (T_done st = true -> T_done st' = true) /\
  (l <> LOpen -> T_exists st' = T_exists st).
Proof.
  intros H O. destruct l; try (pose proof (step_T_alone X cfg st _ st' H ltac:(discriminate) ltac:(discriminate)) as [Q _];
    apply T_same in Q as [-> ->]; auto).
  - specialize (O eq_refl). assert (D : T_done st = false) by (unfold T_exists, T_done in *; now destruct (p_T st)).
    rewrite O, D. split; [discriminate|]. split; [discriminate|]. congruence.
  - cbn [step] in H. pose proof (LegacyTiming.step_T_ends X cfg _ _ _ H) as (A & B & _ & D). rewrite A, B, D.
    split; [auto|]. split; [discriminate|auto].
Qed.

Lemma step_C_not_none st a st' : step_C cfg st a = Some st' -> p_C st' <> CNone.
Proof.
  assert (Ct : forall (s : conn E) e, p_C (close_tcp cfg s e) <> CNone).
  { intros s0 e. unfold close_tcp. destruct (_ && _); [discriminate|]. now destruct (is_lost _). }
  assert (Hc : forall s : conn E, p_C (half_close cfg s) <> CNone).
  { intros s0. unfold half_close. destruct (c_can_write_eof _); [|apply Ct]. destruct (is_lost _); [apply Ct|discriminate]. }
  assert (At : p_C (after_transfer cfg st) <> CNone).
  { unfold after_transfer. destruct (_ && _); [destruct (is_lost _)|]; [apply Ct|discriminate|apply Hc]. }
  unfold step_C. intros H.
  destruct (p_C st) as [| | |d|d|d e|d e|e]; destruct a; try discriminate; try (apply some_inj in H as <-).
  - destruct (T_exists st); [discriminate|exact At].
  - destruct (p_T st) as [| | | | | | |[e|]]; try discriminate; apply some_inj in H as <-; auto.
  - destruct (is_lost st); [|discriminate]. apply some_inj in H as <-. apply Ct.
  - destruct (expired _ _); [|discriminate]. destruct (is_lost st); apply some_inj in H as <-; auto.
  - destruct (is_lost st); [|discriminate]. apply some_inj in H as <-. apply Ct.
  - destruct (expired _ _); [|discriminate]. apply some_inj in H as <-. apply Ct.
  - destruct (is_lost st); [|discriminate]. apply some_inj in H as <-. discriminate.
  - destruct (expired _ _); [|discriminate]. destruct (is_lost st); apply some_inj in H as <-; discriminate.
  - destruct (is_lost st); [|discriminate]. apply some_inj in H as <-. discriminate.
  - destruct (expired _ _); [|discriminate]. apply some_inj in H as <-; discriminate.
Qed.
Lemma step_K_some st a st' : step_K X cfg st a = Some st' ->
  p_K st <> KNone /\ p_K st' <> KNone /\ p_Kcancel st' = p_Kcancel st.
Proof.
  unfold step_K. intros H. split; [now destruct (p_K st)|].
  destruct (p_K st); try discriminate; (destruct (p_Kcancel st) eqn:Kc;
    [destruct a; try discriminate; apply some_inj in H as <-; split; [discriminate|exact Kc]|]).
  - destruct a; try discriminate. destruct (c_ping_interval cfg); apply some_inj in H as <-; split; try discriminate; exact Kc.
  - destruct a; try discriminate. destruct (_ <=? _); [|discriminate].
    destruct (ensure_open st); [|apply some_inj in H as <-; split; [discriminate|exact Kc]|apply some_inj in H as <-; split; [discriminate|exact Kc]].
    destruct (random_ok _ _); [|discriminate].
    destruct (start_ping _ _ _ _ _) as [st2 e2] eqn:Q. apply start_ping_kk in Q as (_ & _ & Q).
    destruct e2; apply some_inj in H as <-; (split; [discriminate|cbn; congruence]).
  - destruct (after_drain X cfg st a) as [[st2 r]|] eqn:D; [|discriminate]. apply after_drain_kk in D as (_ & _ & D).
    destruct r; apply some_inj in H as <-; try (split; [discriminate|cbn; congruence]).
    unfold after_ping. destruct (find_ping _ _); [|split; [discriminate|cbn; congruence]].
    destruct (c_ping_timeout cfg); (split; [discriminate|cbn; congruence]).
  - destruct a; try discriminate. destruct (ensure_open_end st); [|discriminate].
    apply some_inj in H as <-. split; [discriminate|exact Kc].
  - destruct a; try discriminate.
    + destruct (get_fut _ _); try discriminate; apply some_inj in H as <-; (split; [discriminate|exact Kc]).
    + destruct (_ <=? _); [|discriminate].
      destruct (fail_connection _ _ _ _) as [st2 e2] eqn:F. apply fail_kk in F as (_ & _ & F). apply some_inj in H as <-.
      split; [discriminate|cbn; congruence].
Qed.
Lemma classify_K (l : label) : (exists a, l = LK a) \/ (forall a, l <> LK a).
Proof. destruct l; eauto; right; discriminate. Qed.
Lemma Kinv_initial exts : Kinv (initial exts).
Proof. split; [split; reflexivity|]. split; discriminate. Qed.
Lemma Kinv_step st l st' : Kinv st -> step X cfg st l = Some st' -> Kinv st'.
Proof.
  intros (K1 & K2 & K3) H.
  assert (O : l = LOpen -> T_exists st = false).
  { intros ->. cbn [step] in H. destruct (p_state st); try discriminate. destruct (p_C st) eqn:HC; try discriminate.
    destruct (T_exists st); [now destruct K3|reflexivity]. }
  pose proof (step_T_state st l st' H O) as (S1 & S2 & S3).
  assert (C : (l = LOpen \/ exists a, l = LC a) \/ (match l with LOpen | LC _ => false | _ => true end = true /\ (p_C st' = p_C st \/ p_C st = CNone /\ p_C st' = CStart))).
  { destruct l; try (left; eauto; fail); right; (split; [reflexivity|]); cbn [step] in H.
    - destruct (fail_connection _ _ _ _) as [st2 e2] eqn:F. apply some_inj in H as <-.
      now destruct (LegacyTiming.fail_ck X cfg _ _ _ _ F) as (_ & _ & Q & _).
    - destruct (r_eof _); [discriminate|]. apply some_inj in H as <-. now left.
    - destruct (r_eof _); [discriminate|]. apply some_inj in H as <-. now left.
    - destruct (p_state st); try discriminate; apply some_inj in H as <-;
        destruct (connection_lost_shape st o closing) as (? & ? & ? & ? & ? & ->); now left.
    - apply some_inj in H as <-. now left.
    - apply some_inj in H as <-. now left.
    - apply some_inj in H as <-. now left.
    - destruct (nth_error _ _) as [[[] ?]|]; try discriminate; apply some_inj in H as <-; now left.
    - now destruct (LegacyTiming.step_T_ck X cfg _ _ _ H) as (_ & _ & Q & _).
    - now destruct (LegacyTiming.step_K_ck X cfg _ _ _ H) as (_ & _ & Q & _).
    - now destruct (LegacyTiming.step_user_ck X cfg _ _ _ _ H) as (_ & _ & Q & _). }
  destruct C as [[-> |[a ->]]|[CL C]].
  - cbn [step] in H. destruct (p_state st); try discriminate. destruct (p_C st) eqn:HC; try discriminate.
    apply some_inj in H as <-. split; [split; discriminate|]. split; [|discriminate].
    intros Q. change (p_Kcancel st = true) in Q. specialize (O eq_refl). specialize (K2 Q).
    unfold T_exists, T_done in *. destruct (p_T st); discriminate.
  - cbn [step] in H. pose proof (step_C_K _ _ _ H) as (_ & B & _ & _ & _ & D).
    apply T_same in D as [D1 D2]. unfold Kinv. rewrite B, D1, D2. split; [exact K1|].
    split; [|intros Q; specialize (K3 Q)].
    + intros Q. destruct (p_Kcancel st) eqn:Kc; [auto|].
      unfold step_C in H.
      assert (Ct : forall (s : conn E) e, p_Kcancel (close_tcp cfg s e) = p_Kcancel s).
      { intros s0 e. unfold close_tcp. destruct (_ && _); [reflexivity|]. cbv zeta. destruct (is_lost (set_closing true s0)); reflexivity. }
      assert (Hc : forall s : conn E, p_Kcancel (half_close cfg s) = p_Kcancel s).
      { intros s0. unfold half_close. cbv zeta. destruct (c_can_write_eof _); [|apply Ct].
        destruct (is_lost (set_eof_written true s0)); [now rewrite Ct|reflexivity]. }
      assert (At : p_Kcancel (after_transfer cfg st) = true -> p_K st <> KNone).
      { unfold after_transfer. intros W KN. rewrite KN in W.
        destruct (_ && _); [destruct (is_lost _)|]; rewrite ?Ct, ?Hc in W; cbn in W; congruence. }
      destruct (p_C st) as [| | |d|d|d e|d e|e]; destruct a; try discriminate; try (apply some_inj in H as <-).
      * destruct (T_exists st) eqn:Te; [cbn in Q; congruence|].
        apply At in Q. destruct Q. now apply K1.
      * destruct (p_T st) as [| | | | | | |[e|]] eqn:HT; try discriminate; apply some_inj in H as <-.
        { rewrite Ct in Q. congruence. }
        unfold T_done. now rewrite HT.
      * destruct (is_lost st); [|discriminate]. apply some_inj in H as <-. rewrite Ct in Q. congruence.
      * destruct (expired _ _); [|discriminate]. destruct (is_lost st); apply some_inj in H as <-; rewrite ?Ct, ?Hc in Q; congruence.
      * destruct (is_lost st); [|discriminate]. apply some_inj in H as <-. rewrite Ct in Q. congruence.
      * destruct (expired _ _); [|discriminate]. apply some_inj in H as <-. rewrite Ct in Q. congruence.
      * destruct (is_lost st); [|discriminate]. apply some_inj in H as <-. cbn in Q. congruence.
      * destruct (expired _ _); [|discriminate]. destruct (is_lost st); apply some_inj in H as <-; cbn in Q; congruence.
      * destruct (is_lost st); [|discriminate]. apply some_inj in H as <-. cbn in Q. congruence.
      * destruct (expired _ _); [|discriminate]. apply some_inj in H as <-; cbn in Q; congruence.
    + apply step_C_not_none in H. exact H.
  - assert (LO : l <> LOpen /\ forall a, l <> LC a).
    { split; [intros ->|intros a ->]; cbn in CL; discriminate. }
    destruct LO as [LO LC'].
    assert (C' : T_exists st' = true -> p_C st' <> CNone).
    { intros Q1. rewrite (S3 LO) in Q1. specialize (K3 Q1). destruct C as [-> |[Q _]]; congruence. }
    destruct (classify_K l) as [[a ->]|N].
    + cbn [step] in H. apply step_K_some in H as (A & B & D).
      split; [|split; [rewrite D; auto|exact C']].
      rewrite (S3 LO). split; [congruence|]. intros Q. apply K1 in Q. congruence.
    + pose proof (step_K_alone _ _ _ H N LO) as (A & B & D). specialize (D LC').
      unfold Kinv. rewrite A, D. split; [rewrite (S3 LO); exact K1|]. split; [auto|exact C'].
Qed.

(* Executions along which steps satisfy P *)
Lemma along_app (P : conn E -> label -> Prop) st ls1 ls2 : along X cfg P st (ls1 ++ ls2) <->
  along X cfg P st ls1 /\ forall st', exec X cfg st ls1 = Some st' -> along X cfg P st' ls2.
Proof.
  revert st. induction ls1 as [|l ls1 IH]; cbn [app along exec]; intros st.
  - split; [intros H; split; [exact Logic.I|]; intros st' Q; now apply some_inj in Q as <-|]. intros [_ H]. now apply H.
  - destruct (step X cfg st l) as [st1|]; [rewrite IH|]; tauto.
Qed.
Lemma along_steps (I : conn E -> Prop) (P : conn E -> label -> Prop) st ls st' :
  (forall st1 l st2, I st1 -> P st1 l -> step X cfg st1 l = Some st2 -> I st2) ->
  along X cfg P st ls -> I st -> exec X cfg st ls = Some st' -> I st'.
Proof.
  intros HI. revert st. induction ls as [|l ls IH]; cbn [exec along]; intros st A H0 H.
  - now apply some_inj in H as <-.
  - destruct A as [A1 A2]. destruct (step X cfg st l) as [st1|] eqn:S1; [|discriminate].
    apply (IH st1); [exact A2|exact (HI _ _ _ H0 A1 S1)|exact H].
Qed.
Lemma along_and (P Q : conn E -> label -> Prop) st ls :
  along X cfg P st ls -> along X cfg Q st ls -> along X cfg (fun st l => P st l /\ Q st l) st ls.
Proof.
  revert st. induction ls as [|l ls IH]; cbn [along]; intros st; [auto|].
  destruct (step X cfg st l) as [st1|]; intuition.
Qed.

(* An open connection has tasks *)
Definition OpenT st : Prop := p_state st = Open -> T_exists st = true.
Lemma opens_LOpen st l st' : step X cfg st l = Some st' -> l <> LOpen -> p_state st' = Open -> p_state st = Open.
Proof.
  intros H N O. apply (step_reach X cfg False) in H; [|congruence].
  assert (P : forall s1 s2 : conn E, prim cfg False s1 s2 -> p_state s2 = Open -> p_state s1 = Open).
  { destruct 1; try (intros Q; exact Q); try discriminate; try contradiction.
    intros Q. pose proof (connection_lost_fields st0 o c) as (Q' & _). congruence. }
  assert (R : forall s1 s2 : conn E, reach cfg False s1 s2 -> p_state s2 = Open -> p_state s1 = Open).
  { induction 1 as [|s2 s3 _ IH Pr]; [auto|]. intros Q. apply IH. eapply P; eauto. }
  destruct H as [st3 R1|c f st2 st3 _ R1 _ _ _ R2]; [eauto|].
  apply (R _ _ R2) in O. pose proof (record_frame_fields st2 f) as (Q & _). rewrite Q in O. eauto.
Qed.
Lemma OpenT_step st l st' : Kinv st -> OpenT st -> step X cfg st l = Some st' -> OpenT st'.
Proof.
  intros (K1 & K2 & K3) O H Q.
  assert (D : l = LOpen \/ l <> LOpen) by (destruct l; (now left) || (right; discriminate)).
  destruct D as [-> |D].
  - cbn [step] in H. destruct (p_state st); try discriminate. destruct (p_C st); try discriminate.
    now apply some_inj in H as <-.
  - pose proof (opens_LOpen _ _ _ H D Q) as Q'. pose proof (step_T_state st l st' H) as (_ & _ & S3); [congruence|].
    rewrite S3 by exact D. auto.
Qed.

(* Futures of pings aren't aborted before the connection is lost *)
Definition alive (futs : list fut) : Prop := forall w f, nth_error futs w = Some f -> f = FPending \/ f = FResult.
Definition Alive st : Prop := p_state st <> Closed -> alive (p_pongs st).
Lemma alive_replace w futs : alive futs -> alive (replace w FResult futs).
Proof.
  intros A w' f H. destruct (Nat.eq_dec w w') as [<- |N]; [|rewrite nth_error_replace_neq in H by exact N; eauto].
  destruct (Nat.lt_ge_cases w (length futs)) as [L|G].
  - rewrite nth_error_replace_eq in H by exact L. apply some_inj in H as <-. now right.
  - assert (Q : nth_error (replace w FResult futs) w = None) by (apply nth_error_None; now rewrite length_replace).
    congruence.
Qed.
Lemma alive_acknowledge data pings futs : alive futs -> alive (snd (acknowledge data pings futs)).
Proof.
  revert futs. induction pings as [|[i w] pings IH]; cbn [acknowledge]; intros futs A; [exact A|].
  assert (A' : alive (if fut_done (get_fut futs w) then futs else replace w FResult futs))
    by (destruct (fut_done _); [exact A|now apply alive_replace]).
  destruct (bytes_eqb i data); [exact A'|now apply IH].
Qed.
Lemma length_acknowledge data pings futs : length (snd (acknowledge data pings futs)) = length futs.
Proof.
  revert futs. induction pings as [|[i w] pings IH]; cbn [acknowledge]; intros futs; [reflexivity|].
  assert (A' : length (if fut_done (get_fut futs w) then futs else replace w FResult futs) = length futs)
    by (destruct (fut_done _); [reflexivity|apply length_replace]).
  destruct (bytes_eqb i data); [exact A'|now rewrite IH].
Qed.
Lemma length_abort e pings futs : length (fst (abort_futs e pings futs)) = length futs.
Proof.
  revert futs. induction pings as [|[i w] pings IH]; cbn [abort_futs]; intros futs; [reflexivity|].
  destruct (fut_done _); [reflexivity|]. now rewrite IH, length_replace.
Qed.
Lemma record_frame_pongs st f : p_pongs (record_frame st f) =
  match f_opcode f with PONG => p_pongs (receive_pong st (f_data f)) | _ => p_pongs st end.
Proof.
  unfold record_frame. destruct (f_opcode f); try reflexivity; [destruct (parse_close _); reflexivity|].
  unfold receive_pong. change (has_ping (set_in _ st)) with (has_ping st). destruct (has_ping st _); [|reflexivity].
  change (p_pings (set_in _ st)) with (p_pings st). change (p_pongs (set_in _ st)) with (p_pongs st).
  destruct (acknowledge _ _ _). reflexivity.
Qed.
Lemma receive_pong_pongs st data : p_pongs (receive_pong st data) =
  if has_ping st data then snd (acknowledge data (p_pings st) (p_pongs st)) else p_pongs st.
Proof. unfold receive_pong. destruct (has_ping st data); [|reflexivity]. now destruct (acknowledge _ _ _). Qed.
Lemma Alive_step st l st' : Alive st -> step X cfg st l = Some st' -> Alive st'.
Proof.
  apply step_preserves.
  - intros st1 st2 A Pr. destruct Pr; try exact A.
    + intros _. apply A. congruence.
    + intros _. apply A. congruence.
    + intros _. apply A. congruence.
    + intros _ w f Q. cbn [p_pongs set_pings set_pongs] in Q. destruct (Nat.lt_ge_cases w (length (p_pongs st0))) as [L|G].
      * rewrite nth_error_app1 in Q by exact L. eapply A; [congruence|exact Q].
      * rewrite nth_error_app2 in Q by exact G. destruct (w - length (p_pongs st0))%nat as [|[]]; try discriminate.
        apply some_inj in Q as <-. now left.
    + intros Q. pose proof (connection_lost_fields st0 o c) as (Q' & _). congruence.
  - intros st1 f A. unfold Alive. pose proof (record_frame_fields st1 f) as (-> & _). intros N. specialize (A N).
    rewrite record_frame_pongs. destruct (f_opcode f); try exact A.
    rewrite receive_pong_pongs. destruct (has_ping _ _); [now apply alive_acknowledge|exact A].
Qed.
Lemma pongs_grow st l st' : step X cfg st l = Some st' -> (length (p_pongs st) <= length (p_pongs st'))%nat.
Proof.
  apply (step_preserves X cfg (fun st' => (length (p_pongs st) <= length (p_pongs st'))%nat)); [| |lia].
  - intros st1 st2 A Pr. destruct Pr; try exact A.
    + cbn [p_pongs set_pings set_pongs]. rewrite app_length. lia.
    + unfold connection_lost. cbv zeta. set (st2 := match p_close _ with None => _ | Some _ => _ end).
      assert (Q : p_pongs st2 = p_pongs st0) by (unfold st2; destruct (p_close _); reflexivity).
      clearbody st2. rewrite Q.
      pose proof (length_abort (connection_closed_exc st2) (p_pings st2) (p_pongs st0)) as L.
      destruct (abort_futs _ _ _) as [futs b0]. cbn [fst] in L. destruct b0; cbn [p_pongs set_reader set_lost set_pongs set_K]; lia.
  - intros st1 f A. rewrite record_frame_pongs. destruct (f_opcode f); try exact A.
    rewrite receive_pong_pongs. destruct (has_ping _ _); [now rewrite length_acknowledge|exact A].
Qed.

Lemma success_replace w w' v futs : fut_done (get_fut futs w') = false -> succeeded futs w -> succeeded (replace w' v futs) w.
Proof.
  unfold succeeded. intros D Q. destruct (Nat.eq_dec w' w) as [-> |N]; [|now rewrite nth_error_replace_neq].
  rewrite (get_fut_nth _ _ _ Q) in D. discriminate.
Qed.
Lemma success_acknowledge data pings futs w : succeeded futs w -> succeeded (snd (acknowledge data pings futs)) w.
Proof.
  revert futs. induction pings as [|[i w'] pings IH]; cbn [acknowledge]; intros futs A; [exact A|].
  assert (A' : succeeded (if fut_done (get_fut futs w') then futs else replace w' FResult futs) w)
    by (destruct (fut_done _) eqn:Q; [exact A|now apply success_replace]).
  destruct (bytes_eqb i data); [exact A'|now apply IH].
Qed.
Lemma success_abort e pings futs w : succeeded futs w -> succeeded (fst (abort_futs e pings futs)) w.
Proof.
  revert futs. induction pings as [|[i w'] pings IH]; cbn [abort_futs]; intros futs A; [exact A|].
  destruct (fut_done _) eqn:Q; [exact A|]. apply IH. now apply success_replace.
Qed.
Lemma success_stays st l st' w : step X cfg st l = Some st' -> succeeded (p_pongs st) w -> succeeded (p_pongs st') w.
Proof.
  intros H S0. revert H. apply (step_preserves X cfg (fun st' => succeeded (p_pongs st') w)); [| |exact S0].
  - intros st1 st2 A Pr. destruct Pr; try exact A.
    + cbn [p_pongs set_pings set_pongs]. unfold succeeded in *. rewrite nth_error_app1; [exact A|]. now apply pending_lt in A.
    + unfold connection_lost. cbv zeta. set (st2 := match p_close _ with None => _ | Some _ => _ end).
      assert (Q : p_pongs st2 = p_pongs st0) by (unfold st2; destruct (p_close _); reflexivity).
      clearbody st2. rewrite Q.
      pose proof (success_abort (connection_closed_exc st2) (p_pings st2) (p_pongs st0) w A) as L.
      destruct (abort_futs _ _ _) as [futs b0]. destruct b0; exact L.
  - intros st1 f A. rewrite record_frame_pongs. destruct (f_opcode f); try exact A.
    rewrite receive_pong_pongs. destruct (has_ping _ _); [now apply success_acknowledge|exact A].
Qed.

(* An identifier that isn't used exists *)
Lemma fresh_identifier_aux st m : m = 256 ^ N.of_nat 4 -> lenN (p_pings st) < m -> exists r, random_ok st r = true.
Proof.
  intros Hm H.
  assert (D : (exists r, random_ok st r = true) \/
    forall n, n < m -> In (be_bytes 4 n) (map fst (p_pings st))).
  { set (ok := fun n => has_ping st (be_bytes 4 n)).
    assert (R : forall k : nat, (exists n, n < N.of_nat k /\ ok n = false) \/ forall n, n < N.of_nat k -> ok n = true).
    { induction k as [|k [(n & L & IH)|IH]].
      - right. intros n L. lia.
      - left. exists n. split; [lia|exact IH].
      - destruct (ok (N.of_nat k)) eqn:Q; [right|left; exists (N.of_nat k); split; [lia|exact Q]].
        intros n L. destruct (N.eq_dec n (N.of_nat k)) as [-> |N0]; [exact Q|]. apply IH. lia. }
    destruct (R (N.to_nat (m))) as [(n & _ & Q)|Q].
    - left. exists (be_bytes 4 n). unfold random_ok, lenN. rewrite be_bytes_length. unfold ok in Q. now rewrite Q.
    - right. intros n L. apply has_ping_In. apply Q. now rewrite N2Nat.id. }
  destruct D as [D|D]; [exact D|exfalso].
  set (ids := map (fun n => be_bytes 4 (N.of_nat n)) (seq 0 (N.to_nat (m)))).
  assert (ND : NoDup ids).
  { apply (NoDup_map_inv be_N). unfold ids. rewrite map_map.
    rewrite (map_ext_in _ N.of_nat).
    - apply FinFun.Injective_map_NoDup; [|apply seq_NoDup]. intros x y. apply Nat2N.inj.
    - intros x Hx. apply in_seq in Hx as [_ Hx]. rewrite Nat.add_0_l in Hx. apply be_N_be_bytes_small.
      rewrite <- Hm. lia. }
  assert (IC : incl ids (map fst (p_pings st))).
  { intros x Hx. apply in_map_iff in Hx as (n & <- & Hn). apply in_seq in Hn as [_ Hn]. rewrite Nat.add_0_l in Hn.
    apply D. lia. }
  pose proof (NoDup_incl_length ND IC) as L. unfold ids in L. rewrite !map_length, seq_length in L.
  unfold lenN in H. lia.
Qed.

Lemma fresh_identifier st : lenN (p_pings st) < 2 ^ 32 -> exists r, random_ok st r = true.
Proof. apply fresh_identifier_aux. reflexivity. Qed.

(* Control frames can be written *)
Context (AC : accepts_control X) (Keys : forall n, length (c_key cfg n) = 4%nat).
Lemma encode_control exts f : is_ctrl (f_opcode f) = true -> exists exts', encode_in_order X exts f = (exts', Ok f).
Proof.
  intros C. induction exts as [|e exts (exts' & IH)]; cbn [encode_in_order]; [eauto|].
  destruct (AC e f C) as (e' & ->). rewrite IH. eauto.
Qed.
Lemma write_control st by_ op data : is_ctrl op = true -> lenN data <= 125 ->
  exists exts w, write X cfg st by_ (mkframe true op data) =
    (set_out (p_out st ++ [Sent by_ (mkframe true op data) w]) (set_exts exts st), None).
Proof.
  intros C L. unfold write, serialize.
  assert (Ck : check (mkframe true op data) = Ok tt).
  { unfold check. cbn [f_rsv1 f_rsv2 f_rsv3 f_opcode f_data f_fin mkframe orb]. rewrite C.
    destruct (N.ltb_spec 125 (lenN data)); [lia|reflexivity]. }
  rewrite Ck. destruct (encode_control (p_exts st) (mkframe true op data) C) as (exts' & ->).
  destruct (wire_succeeds (mkframe true op data) (c_client cfg) (c_key cfg (length (p_out st)))) as (w & ->).
  - apply Keys.
  - cbn [f_data mkframe]. lia.
  - exists exts', w. reflexivity.
Qed.

Lemma find_ping_last st data w : has_ping st data = false ->
  find_ping (set_pings (p_pings st ++ [(data, w)]) st) data = Some w.
Proof.
  unfold has_ping, find_ping. cbn [p_pings set_pings]. induction (p_pings st) as [|[i v] l IH]; cbn [app find existsb fst].
  - intros _. assert (Q : bytes_eqb data data = true) by now apply bytes_eqb_eq'. now rewrite Q.
  - destruct (bytes_eqb i data); cbn [orb]; [discriminate|exact IH].
Qed.
Lemma start_ping_succeeds st by_ data : p_state st = Open -> has_ping st data = false -> lenN data <= 125 ->
  exists st', start_ping X cfg st by_ data = (st', None) /\ kk st st' /\ p_state st' = p_state st /\ p_T st' = p_T st /\
    p_pings st' = p_pings st ++ [(data, length (p_pongs st))] /\ p_pongs st' = p_pongs st ++ [FPending] /\
    find_ping st' data = Some (length (p_pongs st)) /\ p_in st' = p_in st /\
    exists w, p_out st' = p_out st ++ [Sent by_ (mkframe true PING data) w].
Proof.
  intros O F L. unfold start_ping, write_frame. cbv zeta.
  change (p_state (set_pings _ _)) with (p_state st). rewrite O. cbn [pstate_eqb negb].
  destruct (write_control (set_pings (p_pings (set_pongs (p_pongs st ++ [FPending]) st) ++ [(data, length (p_pongs st))])
    (set_pongs (p_pongs st ++ [FPending]) st)) by_ PING data eq_refl L) as (exts & w & ->).
  eexists. split; [reflexivity|]. split; [kk|]. split; [exact O|]. split; [reflexivity|].
  split; [reflexivity|]. split; [reflexivity|].
  split; [exact (find_ping_last st data (length (p_pongs st)) F)|]. split; [reflexivity|]. exists w. reflexivity.
Qed.
Lemma ensure_open_usable st : usable st -> ensure_open st = EOk.
Proof. intros [O D]. unfold ensure_open. now rewrite O, D. Qed.
Lemma fail_1011 st : p_state st = Open ->
  exists st' w, fail_connection X cfg st 1011 = (st', None) /\ p_state st' = Closing /\
  p_out st' = p_out st ++ [Sent ByFailure (mkframe true CLOSE (be_bytes 2 1011)) w].
Proof.
  intros O. unfold fail_connection. cbv zeta.
  assert (Q : p_state (cancel_T st) = Open /\ p_out (cancel_T st) = p_out st) by
    (unfold cancel_T; destruct (_ && _); split; auto). destruct Q as [Q1 Q2]. rewrite Q1. cbn [Z.eqb negb is_open andb].
  change (serialize_close 1011 []) with (Ok (be_bytes 2 1011)).
  destruct (write_control (set_state Closing (cancel_T st)) ByFailure CLOSE (be_bytes 2 1011) eq_refl) as (exts & w & ->);
    [vm_compute; discriminate|].
  eexists _, w. split; [reflexivity|]. rewrite <- Q2.
  match goal with |- context [match p_C ?s with _ => _ end] => destruct (p_C s) end; split; reflexivity.
Qed.

Context (I T : N) (CI : c_ping_interval cfg = Some I) (CT : c_ping_timeout cfg = Some T).

(* What keepalive_ping waits for, while the connection is usable *)
Definition G st : Prop := usable st ->
  match p_K st with
  | KStart => True
  | KSleep d => p_now st <= d /\ d <= p_now st + I
  | KPingDrain data => exists w, find_ping st data = Some w /\ pending (p_pongs st) w
  | KPong w d => (w < length (p_pongs st))%nat /\ d <= p_now st + T /\ (pending (p_pongs st) w -> p_now st <= d)
  | _ => False
  end.
Definition Inv st : Prop := Base st /\ Kinv st /\ OpenT st /\ Alive st /\ G st.
Definition Ok_step st l : Prop := on_time X cfg st l /\ flushed_at_once st l /\ few_pings st l.

Lemma usable_before st l st' : Kinv st -> step X cfg st l = Some st' -> l <> LOpen -> usable st' -> usable st.
Proof.
  intros K H N [O D]. split; [exact (opens_LOpen _ _ _ H N O)|].
  pose proof (step_T_state st l st' H) as (_ & S2 & _); [congruence|].
  destruct (T_done st); [|reflexivity]. rewrite S2 in D by reflexivity. discriminate.
Qed.
Lemma usable_Kcancel st : Kinv st -> usable st -> p_Kcancel st = false.
Proof. intros (_ & K2 & _) [_ D]. destruct (p_Kcancel st); [|reflexivity]. rewrite K2 in D by reflexivity. discriminate. Qed.
Lemma pongs_alive st w : Alive st -> usable st -> (w < length (p_pongs st))%nat ->
  pending (p_pongs st) w \/ succeeded (p_pongs st) w.
Proof.
  intros A [O _] L. destruct (nth_error (p_pongs st) w) as [f|] eqn:Q; [|apply nth_error_None in Q; lia].
  destruct (A ltac:(congruence) w f Q) as [-> | ->]; [now left|now right].
Qed.
(* time doesn't pass when keepalive_ping can run *)
Lemma tick_bound st d x : on_time X cfg st (LTick d) -> keepalive_ready X cfg (set_now (p_now st + x) st) -> d <= x.
Proof. intros O R. destruct (N.le_gt_cases d x) as [L|Gt]; [exact L|]. destruct (O d eq_refl x Gt R). Qed.
Lemma ready_start st : p_K st = KStart -> keepalive_ready X cfg st.
Proof.
  intros K. exists (LK Go). split; [auto|]. cbn [step]. unfold step_K. rewrite K.
  destruct (p_Kcancel st); [discriminate|]. now rewrite CI.
Qed.
Lemma ready_sleep st d : Kinv st -> usable st -> few_pings st LOpen -> p_K st = KSleep d -> d <= p_now st -> keepalive_ready X cfg st.
Proof.
  intros K U F HK L. destruct (fresh_identifier st F) as (r & Hr). exists (LK (GoRand r)). split; [eauto|].
  cbn [step]. unfold step_K. rewrite HK, (usable_Kcancel _ K U). destruct (N.leb_spec d (p_now st)); [|lia].
  rewrite (ensure_open_usable _ U), Hr. destruct (start_ping _ _ _ _ _) as [st1 [e|]]; discriminate.
Qed.
Lemma ready_done st w d : p_K st = KPong w d -> get_fut (p_pongs st) w <> FPending -> keepalive_ready X cfg st.
Proof.
  intros HK S0. exists (LK Go). split; [auto|].
  cbn [step]. unfold step_K. rewrite HK. destruct (p_Kcancel st); [discriminate|].
  destruct (get_fut _ w); congruence.
Qed.
Lemma ready_timeout st w d : Kinv st -> usable st -> p_K st = KPong w d -> d <= p_now st -> keepalive_ready X cfg st.
Proof.
  intros K U HK L. exists (LK Timeout). split; [auto|].
  cbn [step]. unfold step_K. rewrite HK, (usable_Kcancel _ K U). destruct (N.leb_spec d (p_now st)); [|lia].
  destruct (fail_connection _ _ _ _). discriminate.
Qed.

(* The steps of keepalive_ping on a usable connection *)
Lemma step_K_usable st a st' : Inv st -> step_K X cfg st a = Some st' -> flushed_at_once st (LK a) -> usable st' ->
  p_now st' = p_now st /\ p_in st' = p_in st /\
  match p_K st with
  | KStart => p_K st' = KSleep (p_now st + I)
  | KSleep d => d <= p_now st /\ exists r, p_K st' = KPingDrain r /\
      find_ping st' r = Some (length (p_pongs st)) /\ pending (p_pongs st') (length (p_pongs st))
  | KPingDrain r => exists w, p_K st' = KPong w (p_now st + T) /\ pending (p_pongs st') w
  | KPong w d => succeeded (p_pongs st) w /\ p_K st' = KSleep (p_now st + I)
  | _ => False
  end.
Proof.
  intros (Ba & K & OT & A & G0) H F U'.
  assert (U : usable st) by (eapply (usable_before st (LK a)); eauto; discriminate).
  pose proof (usable_Kcancel _ K U) as Kc. specialize (G0 U).
  assert (In_ : p_in st' = p_in st) by (now apply step_K_shape in H as (? & ? & ? & ? & ? & ? & ? & ? & ->)).
  assert (Now : p_now st' = p_now st) by (now apply step_K_shape in H as (? & ? & ? & ? & ? & ? & ? & ? & ->)).
  split; [exact Now|]. split; [exact In_|].
  unfold step_K in H. destruct (p_K st) as [| |d|data| |w d|] eqn:HK; try contradiction; rewrite Kc in H.
  - destruct a; try discriminate. rewrite CI in H. now apply some_inj in H as <-.
  - destruct a; try discriminate. destruct (N.leb_spec d (p_now st)) as [Ld|]; [|discriminate].
    rewrite (ensure_open_usable _ U) in H. destruct (random_ok st r) eqn:R; [|discriminate].
    unfold random_ok in R. apply andb_prop in R as [R1 R2]. apply N.eqb_eq in R1.
    apply Bool.negb_true_iff in R2.
    destruct (start_ping_succeeds st ByKeepalive r (proj1 U) R2 ltac:(lia)) as (st2 & E2 & _ & _ & _ & _ & P2 & F2 & _).
    rewrite E2 in H. apply some_inj in H as <-. split; [exact Ld|]. exists r. split; [reflexivity|].
    split; [exact F2|]. change (p_pongs (set_K _ st2)) with (p_pongs st2). rewrite P2. unfold pending.
    rewrite nth_error_app2 by lia. now rewrite Nat.sub_diag.
  - destruct G0 as (w & F2 & P2). specialize (F data HK). injection F as ->.
    cbn [after_drain] in H. apply some_inj in H as <-. unfold after_ping. rewrite F2, CT. exists w. split; [reflexivity|exact P2].
  - destruct a; try discriminate.
    + destruct G0 as (Lw & _). destruct (pongs_alive st w A U Lw) as [Q|Q].
      * now rewrite (get_fut_pending _ _ Q) in H.
      * rewrite (get_fut_nth _ _ _ Q) in H. apply some_inj in H as <-. split; [exact Q|].
        cbn [p_K set_K]. unfold interval. now rewrite CI.
    + destruct (_ <=? _); [|discriminate]. destruct (fail_1011 st (proj1 U)) as (st2 & w2 & E2 & S2 & _).
      rewrite E2 in H. apply some_inj in H as <-. destruct U' as [U' _]. cbn [p_state set_K] in U'. congruence.
Qed.

Lemma set_now_usable st x : usable st -> usable (set_now x st).
Proof. auto. Qed.
Lemma succeeded_get futs w : succeeded futs w -> get_fut futs w <> FPending.
Proof. intros Q. rewrite (get_fut_nth _ _ _ Q). discriminate. Qed.
Lemma pending_or_not futs w : pending futs w -> succeeded futs w -> False.
Proof. unfold pending, succeeded. congruence. Qed.
Lemma pending_before st l st' w : Alive st -> usable st -> (w < length (p_pongs st))%nat ->
  step X cfg st l = Some st' -> pending (p_pongs st') w -> pending (p_pongs st) w.
Proof.
  intros A U L H P'. destruct (pongs_alive st w A U L) as [Q|Q]; [exact Q|exfalso].
  pose proof (success_stays st l st' w H Q) as Q'. exact (pending_or_not _ _ P' Q').
Qed.

Lemma G_step st l st' : Inv st -> Ok_step st l -> step X cfg st l = Some st' -> Kinv st' -> G st'.
Proof.
  intros Iv (OT & FL & FP) H K' U'.
  assert (D : l = LOpen \/ l <> LOpen) by (destruct l; (now left) || (right; discriminate)).
  destruct D as [-> |D].
  { cbn [step] in H. destruct (p_state st); try discriminate. destruct (p_C st); try discriminate.
    apply some_inj in H as <-. exact Logic.I. }
  pose proof Iv as (Ba & K & Op & A & G0).
  assert (U : usable st) by (eapply usable_before; eauto). specialize (G0 U).
  destruct (classify_K l) as [[a ->]|N].
  - cbn [step] in H. pose proof (step_K_usable st a st' Iv H FL U') as (Now & _ & M).
    destruct (p_K st) as [| |d|data| |w d|] eqn:HK; try contradiction; rewrite Now.
    + rewrite M. lia.
    + destruct M as (_ & r & -> & M). eauto.
    + destruct M as (w & -> & M). split; [|lia]. unfold pending in M. now apply pending_lt in M.
    + destruct M as (_ & ->). lia.
  - pose proof (step_K_alone _ _ _ H N D) as (SK & Now & _). rewrite SK.
    assert (Tk : forall d, l = LTick d -> forall x, keepalive_ready X cfg (set_now (p_now st + x) st) -> d <= x)
      by (intros d -> x R; eapply tick_bound; eauto).
    assert (R0 : keepalive_ready X cfg st -> p_now st' = p_now st).
    { intros R. rewrite Now. destruct l as [| | | | |d| | | | | | |]; try lia. specialize (Tk d eq_refl 0).
      rewrite N.add_0_r in Tk. assert (Q : set_now (p_now st) st = st) by (now destruct st). rewrite Q in Tk. specialize (Tk R). lia. }
    destruct (p_K st) as [| |d|data| |w d|] eqn:HK; try contradiction.
    + exact Logic.I.
    + destruct G0 as [G1 G2].
      assert (B : p_now st' <= d).
      { rewrite Now. destruct l as [| | | | |e| | | | | | |]; try lia.
        assert (e <= d - p_now st); [|lia]. apply (Tk e eq_refl).
        apply (ready_sleep _ d); [exact K|exact U|exact FP|exact HK|]. cbn [p_now set_now]. lia. }
      split; [exact B|]. rewrite Now. lia.
    + specialize (FL data HK). subst l. now destruct (N DrainOk).
    + destruct G0 as (G1 & G2 & G3). split; [pose proof (pongs_grow _ _ _ H); lia|].
      split; [rewrite Now; lia|]. intros P'. pose proof (pending_before _ _ _ _ A U G1 H P') as P0. specialize (G3 P0).
      rewrite Now. destruct l as [| | | | |e| | | | | | |]; try lia.
      assert (e <= d - p_now st); [|lia]. apply (Tk e eq_refl).
      apply (ready_timeout _ w d); [exact K|exact U|exact HK|]. cbn [p_now set_now]. lia.
Qed.
Lemma Inv_step st l st' : Inv st -> Ok_step st l -> step X cfg st l = Some st' -> Inv st'.
Proof.
  intros Iv O H. pose proof Iv as (Ba & K & Op & A & G0).
  pose proof (Kinv_step _ _ _ K H) as K'.
  split; [eapply Base_step; eauto|]. split; [exact K'|]. split; [exact (OpenT_step _ _ _ K Op H)|].
  split; [exact (Alive_step _ _ _ A H)|]. exact (G_step _ _ _ Iv O H K').
Qed.
Lemma Inv_initial exts : Inv (initial exts).
Proof.
  split; [apply Base_initial|]. split; [apply Kinv_initial|]. split; [discriminate|].
  split; [intros _ w f Q; destruct w; discriminate|]. intros [Q _]. discriminate.
Qed.

(* When keepalive_ping acts if no pong is received, at the latest *)
Definition Before (Bd : N) st : Prop :=
  match p_K st with
  | KStart => p_now st + I + T <= Bd
  | KSleep d => d + T <= Bd
  | KPingDrain _ => p_now st + T <= Bd
  | KPong w d => (succeeded (p_pongs st) w -> p_now st + I + T <= Bd) /\ (pending (p_pongs st) w -> d <= Bd)
  | _ => False
  end.
Lemma Before_start st : Inv st -> usable st -> Before (p_now st + I + T) st.
Proof.
  intros (_ & _ & _ & _ & G0) U. specialize (G0 U). unfold Before.
  destruct (p_K st) as [| |d|data| |w d|]; try contradiction; lia.
Qed.
Lemma Before_now Bd st : Inv st -> usable st -> Before Bd st -> p_now st <= Bd.
Proof.
  intros (_ & _ & _ & A & G0) U. specialize (G0 U). unfold Before.
  destruct (p_K st) as [| |d|data| |w d|]; try contradiction; try lia.
  destruct G0 as (G1 & G2 & G3). intros [B1 B2]. destruct (pongs_alive st w A U G1) as [Q|Q]; [specialize (B2 Q)|specialize (B1 Q)]; lia.
Qed.
Lemma Before_step Bd st l st' : Inv st -> Ok_step st l -> step X cfg st l = Some st' -> l <> LOpen -> usable st' ->
  (forall f, p_in st' = p_in st ++ [f] -> f_opcode f <> PONG) -> Before Bd st -> Before Bd st'.
Proof.
  intros Iv (OT & FL & FP) H D U' NP B.
  pose proof Iv as (Ba & K & Op & A & G0).
  assert (U : usable st) by (eapply usable_before; eauto). specialize (G0 U).
  destruct (classify_K l) as [[a ->]|N].
  - cbn [step] in H. pose proof (step_K_usable st a st' Iv H FL U') as (Now & _ & M). unfold Before in *.
    destruct (p_K st) as [| |d|data| |w d|] eqn:HK; try contradiction; rewrite Now.
    + rewrite M. exact B.
    + destruct M as (M & r & -> & _). lia.
    + destruct M as (w & -> & M). split; [|lia]. intros Q. destruct (pending_or_not _ _ M Q).
    + destruct M as (M & ->). now apply B.
  - pose proof (step_K_alone _ _ _ H N D) as (SK & Now & _). unfold Before in *. rewrite SK.
    assert (R0 : keepalive_ready X cfg st -> p_now st' = p_now st).
    { intros R. rewrite Now. destruct l as [| | | | |d| | | | | | |]; try lia.
      pose proof (tick_bound st d 0 OT) as Tk.
      rewrite N.add_0_r in Tk. assert (Q : set_now (p_now st) st = st) by (now destruct st). rewrite Q in Tk. specialize (Tk R). lia. }
    destruct (p_K st) as [| |d|data| |w d|] eqn:HK; try contradiction.
    + rewrite R0 by (now apply ready_start). exact B.
    + exact B.
    + specialize (FL data HK). subst l. now destruct (N DrainOk).
    + destruct B as [B1 B2]. destruct G0 as (G1 & _). split.
      * intros Q'. destruct (success_step X cfg _ _ _ _ H Q') as [Q|(f & _ & Q1 & Q2)]; [|now destruct (NP f Q1)].
        rewrite R0 by (apply (ready_done st w d HK); now apply succeeded_get). auto.
      * intros Q'. apply B2. eapply pending_before; eauto.
Qed.

(* Frames that were read aren't forgotten *)
Lemma in_step st l st' : step X cfg st l = Some st' -> p_in st' = p_in st \/ exists f, p_in st' = p_in st ++ [f].
Proof.
  intros H. apply (step_reach X cfg True) in H; [|auto]. destruct H as [st2 R|c f st1 st2 Rd R1 I1 _ _ R2].
  - left. eapply reach_in; eauto.
  - right. exists f. rewrite (reach_in _ _ _ R2). pose proof (record_frame_fields st1 f) as (_ & _ & _ & _ & -> & _).
    now rewrite I1.
Qed.
Lemma in_exec st ls st' : exec X cfg st ls = Some st' -> exists fs, p_in st' = p_in st ++ fs.
Proof.
  revert st. induction ls as [|l ls IH]; cbn [exec]; intros st H.
  - apply some_inj in H as <-. exists []. now rewrite app_nil_r.
  - destruct (step X cfg st l) as [st1|] eqn:S1; [|discriminate]. apply IH in H as (fs & ->).
    destruct (in_step _ _ _ S1) as [-> |(f & ->)]; [eauto|]. exists (f :: fs). now rewrite <- app_assoc.
Qed.
Lemma usable_exec st ls st' : Kinv st -> p_state st <> Connecting -> exec X cfg st ls = Some st' -> usable st' -> usable st.
Proof.
  revert st. induction ls as [|l ls IH]; cbn [exec]; intros st K N H U.
  - now apply some_inj in H as <-.
  - destruct (step X cfg st l) as [st1|] eqn:S1; [|discriminate].
    assert (D : l <> LOpen). { intros ->. cbn [step] in S1. destruct (p_state st); try discriminate. congruence. }
    apply (usable_before st l st1 K S1 D). apply (IH st1); auto.
    + eapply Kinv_step; eauto.
    + pose proof (rank_step X cfg _ _ _ S1). apply rank_Connecting. apply rank_Connecting in N. lia.
Qed.
Lemma Before_exec Bd st ls st' : Inv st -> along X cfg Ok_step st ls -> exec X cfg st ls = Some st' ->
  p_state st <> Connecting -> usable st' ->
  (forall fs, p_in st' = p_in st ++ fs -> Forall (fun f => f_opcode f <> PONG) fs) -> Before Bd st -> Before Bd st'.
Proof.
  revert st. induction ls as [|l ls IH]; cbn [exec along]; intros st Iv A H N U NP B.
  - now apply some_inj in H as <-.
  - destruct A as [A1 A2]. destruct (step X cfg st l) as [st1|] eqn:S1; [|discriminate].
    assert (D : l <> LOpen). { intros ->. cbn [step] in S1. destruct (p_state st); try discriminate. congruence. }
    assert (N1 : p_state st1 <> Connecting).
    { pose proof (rank_step X cfg _ _ _ S1). apply rank_Connecting. apply rank_Connecting in N. lia. }
    pose proof (Inv_step _ _ _ Iv A1 S1) as Iv1. pose proof Iv1 as (_ & K1 & _).
    pose proof (usable_exec st1 ls st' K1 N1 H U) as U1.
    destruct (in_exec st1 ls st' H) as (fs & Hfs).
    apply (IH st1); auto.
    + intros fs' Q. rewrite Q in Hfs. apply app_inv_head in Hfs. subst fs'.
      destruct (in_step _ _ _ S1) as [Q1|(f & Q1)]; rewrite Q1 in Q.
      * now apply NP.
      * rewrite <- app_assoc in Q. apply NP in Q. now inversion Q.
    + apply (Before_step Bd st l st1); auto. intros f Q Hf. rewrite Hfs, Q, <- app_assoc in NP.
      specialize (NP _ eq_refl). inversion NP; subst. contradiction.
Qed.
End Keepalive.

(* Why keepalive_ping fails the connection *)
Section Alarm.
Context {E : Type} (X : ext_ops E) (cfg : config) (t : N).
Context (CT : c_ping_timeout cfg = Some t).
Implicit Type st : conn E.

Definition done_fut (futs : list fut) (w : nat) : Prop := exists f, nth_error futs w = Some f /\ f <> FPending.
Lemma done_replace futs w w' v : fut_done (get_fut futs w') = false -> done_fut futs w -> done_fut (replace w' v futs) w.
Proof.
  intros D (f & Q & N). destruct (Nat.eq_dec w' w) as [-> |Ne]; [|exists f; now rewrite nth_error_replace_neq].
  rewrite (get_fut_nth _ _ _ Q) in D. destruct f; try discriminate. congruence.
Qed.
Lemma done_acknowledge data pings futs w : done_fut futs w -> done_fut (snd (acknowledge data pings futs)) w.
Proof.
  revert futs. induction pings as [|[i w'] pings IH]; cbn [acknowledge]; intros futs A; [exact A|].
  assert (A' : done_fut (if fut_done (get_fut futs w') then futs else replace w' FResult futs) w)
    by (destruct (fut_done _) eqn:Q; [exact A|now apply done_replace]).
  destruct (bytes_eqb i data); [exact A'|now apply IH].
Qed.
Lemma done_abort e pings futs w : done_fut futs w -> done_fut (fst (abort_futs e pings futs)) w.
Proof.
  revert futs. induction pings as [|[i w'] pings IH]; cbn [abort_futs]; intros futs A; [exact A|].
  destruct (fut_done _) eqn:Q; [exact A|]. apply IH. now apply done_replace.
Qed.
Lemma acknowledge_In data pings futs r w : NoDup (map fst pings) -> In (r, w) pings -> (w < length futs)%nat ->
  let '(pings', futs') := acknowledge data pings futs in
  (In (r, w) pings' \/ done_fut futs' w) /\ (data = r -> done_fut futs' w).
Proof.
  revert futs. induction pings as [|[i w'] pings IH]; cbn [acknowledge]; intros futs ND I L; [destruct I|].
  set (futs1 := if fut_done (get_fut futs w') then futs else replace w' FResult futs).
  assert (L1 : (w < length futs1)%nat) by (unfold futs1; destruct (fut_done _); [exact L|now rewrite length_replace]).
  cbn [map fst] in ND. inversion ND as [|? ? N1 N2]; subst.
  assert (D1 : w = w' -> done_fut futs1 w).
  { intros <-. unfold futs1. destruct (fut_done (get_fut futs w)) eqn:Q.
    - destruct (nth_error futs w) as [f|] eqn:Qf; [|apply nth_error_None in Qf; lia].
      rewrite (get_fut_nth _ _ _ Qf) in Q. exists f. split; [exact Qf|]. now destruct f.
    - exists FResult. split; [now apply nth_error_replace_eq|discriminate]. }
  destruct (bytes_eqb i data) eqn:Qi.
  - apply bytes_eqb_eq' in Qi. subst i. destruct I as [I|I].
    + injection I as -> ->. auto.
    + split; [now left|]. intros <-. destruct N1. apply in_map_iff. exists (data, w). auto.
  - destruct I as [I|I].
    + injection I as -> ->. specialize (D1 eq_refl).
      pose proof (done_acknowledge data pings futs1 w D1) as D2. destruct (acknowledge data pings futs1) as [pings' futs'].
      auto.
    + apply IH; auto.
Qed.
Definition there r w st : Prop := In (r, w) (p_pings st) \/ done_fut (p_pongs st) w.
Lemma record_frame_pings st f : p_pings (record_frame st f) =
  match f_opcode f with PONG => p_pings (receive_pong st (f_data f)) | _ => p_pings st end.
Proof.
  unfold record_frame. destruct (f_opcode f); try reflexivity; [destruct (parse_close _); reflexivity|].
  unfold receive_pong. change (has_ping (set_in _ st)) with (has_ping st). destruct (has_ping st _); [|reflexivity].
  change (p_pings (set_in _ st)) with (p_pings st). change (p_pongs (set_in _ st)) with (p_pongs st).
  destruct (acknowledge _ _ _). reflexivity.
Qed.
Lemma receive_pong_there r w st data : Pings st -> (w < length (p_pongs st))%nat -> there r w st ->
  there r w (receive_pong st data).
Proof.
  intros P L H. unfold receive_pong. destruct (has_ping st data); [|exact H].
  pose proof (acknowledge_In data (p_pings st) (p_pongs st) r w (proj1 P)) as A.
  pose proof (done_acknowledge data (p_pings st) (p_pongs st) w) as B.
  destruct (acknowledge _ _ _) as [pings futs]. unfold there. cbn [p_pings p_pongs set_pings set_pongs snd] in *.
  destruct H as [H|H]; [now apply A|auto].
Qed.
Lemma there_step r w st l st' : Pings st -> (w < length (p_pongs st))%nat -> there r w st ->
  step X cfg st l = Some st' -> there r w st'.
Proof.
  intros P L H S0.
  assert (Q : Pings st' /\ (w < length (p_pongs st'))%nat /\ there r w st'); [|tauto].
  revert S0. apply (step_preserves X cfg (fun st' => Pings st' /\ (w < length (p_pongs st'))%nat /\ there r w st')); [| |auto].
  - intros st1 st2 (P1 & L1 & H1) Pr. split; [eapply Pings_prim; eauto|].
    destruct Pr; try (split; [exact L1|exact H1]).
    + unfold there. cbn [p_pings p_pongs set_pings set_pongs]. rewrite app_length. split; [lia|].
      destruct H1 as [H1|(f & H1 & H1')]; [left; rewrite in_app_iff; auto|right]. exists f. split; [|exact H1'].
      rewrite nth_error_app1; auto.
    + unfold connection_lost. cbv zeta. set (st2 := match p_close _ with None => _ | Some _ => _ end).
      assert (Q : p_pongs st2 = p_pongs st0 /\ p_pings st2 = p_pings st0) by (unfold st2; destruct (p_close _); auto).
      destruct Q as [Q1 Q2]. clearbody st2. rewrite Q1, Q2.
      pose proof (length_abort (connection_closed_exc st2) (p_pings st0) (p_pongs st0)) as LA.
      pose proof (done_abort (connection_closed_exc st2) (p_pings st0) (p_pongs st0) w) as DA.
      destruct (abort_futs _ _ _) as [futs b0]. cbn [fst] in LA, DA. unfold there in *.
      destruct b0; cbn [p_pongs p_pings set_reader set_lost set_pongs] in *; rewrite ?Q2; (split; [lia|tauto]).
  - intros st1 f (P1 & L1 & H1). split; [now apply Pings_frame|]. unfold there.
    rewrite record_frame_pongs, record_frame_pings.
    destruct (f_opcode f); try (split; [exact L1|exact H1]).
    split; [|now apply receive_pong_there].
    rewrite receive_pong_pongs. destruct (has_ping _ _); [now rewrite length_acknowledge|exact L1].
Qed.
Lemma done_stays w st l st' : Pings st -> done_fut (p_pongs st) w -> step X cfg st l = Some st' -> done_fut (p_pongs st') w.
Proof.
  intros P (f & Q & N) S0.
  revert S0. apply (step_preserves X cfg (fun st' => done_fut (p_pongs st') w)); [| |now exists f].
  - intros st1 st2 A Pr. destruct Pr; try exact A.
    + destruct A as (g & A1 & A2). exists g. split; [|exact A2]. cbn [p_pongs set_pings set_pongs].
      rewrite nth_error_app1; [exact A1|]. now apply pending_lt in A1.
    + unfold connection_lost. cbv zeta. set (st2 := match p_close _ with None => _ | Some _ => _ end).
      assert (Q' : p_pongs st2 = p_pongs st0) by (unfold st2; destruct (p_close _); reflexivity).
      clearbody st2. rewrite Q'.
      pose proof (done_abort (connection_closed_exc st2) (p_pings st2) (p_pongs st0) w A) as DA.
      destruct (abort_futs _ _ _) as [futs b0]. destruct b0; exact DA.
  - intros st1 g A. rewrite record_frame_pongs. destruct (f_opcode g); try exact A.
    rewrite receive_pong_pongs. destruct (has_ping _ _); [now apply done_acknowledge|exact A].
Qed.
Lemma pong_done r w st l st' f : Pings st -> (w < length (p_pongs st))%nat -> In (r, w) (p_pings st) ->
  step X cfg st l = Some st' -> p_in st' = p_in st ++ [f] -> f_opcode f = PONG -> f_data f = r -> done_fut (p_pongs st') w.
Proof.
  intros P L I S0 If Hf Hr. destruct (pong_step X cfg _ _ _ _ S0 If Hf) as [_ ->]. rewrite Hr.
  unfold receive_pong. assert (Hp : has_ping st r = true) by (apply has_ping_In, in_map_iff; exists (r, w); auto).
  rewrite Hp. pose proof (acknowledge_In r (p_pings st) (p_pongs st) r w (proj1 P) I L) as A.
  destruct (acknowledge _ _ _) as [pings futs]. now apply A.
Qed.

(* No pong with payload r was read in less than t *)
Definition silent (r : bytes) sb (lb : list label) : Prop :=
  forall lc ld sc, lb = lc ++ ld -> exec X cfg sb lc = Some sc -> p_now sc < p_now sb + t ->
  forall fs, p_in sc = p_in sb ++ fs -> Forall (fun f => ~ (f_opcode f = PONG /\ f_data f = r)) fs.
Definition pinged exts (ls la lb : list label) (r : bytes) (sb st : conn E) : Prop :=
  ls = la ++ LK (GoRand r) :: lb /\ exec X cfg sb lb = Some st /\
  exists sa x, exec X cfg (initial exts) la = Some sa /\ step X cfg sa (LK (GoRand r)) = Some sb /\
  p_out sb = p_out sa ++ [x] /\ o_frame x = mkframe true PING r.
Definition Alarm exts (ls : list label) st : Prop :=
  match p_K st with
  | KPingDrain r => exists la w, pinged exts ls la [] r st st /\ In (r, w) (p_pings st) /\ find_ping st r = Some w
  | KPong w d => exists la lb r sb, pinged exts ls la lb r sb st /\ p_now sb + t = d /\ (w < length (p_pongs st))%nat /\
      ((silent r sb lb /\ (d <= p_now st \/ In (r, w) (p_pings st))) \/ (done_fut (p_pongs st) w /\ p_now st < d))
  | _ => True
  end.
Lemma find_ping_In st r w : find_ping st r = Some w -> In (r, w) (p_pings st).
Proof.
  unfold find_ping. destruct (find _ _) as [[r' w']|] eqn:Q; [|discriminate]. intros H. apply some_inj in H as <-.
  apply find_some in Q as [Q1 Q2]. cbn [fst] in Q2. apply bytes_eqb_eq' in Q2. subst r'. exact Q1.
Qed.
Lemma exists_last' {A} (l : list A) : l = [] \/ exists l' x, l = l' ++ [x].
Proof. destruct l as [|a l]; [now left|right]. destruct (exists_last (l := a :: l)) as (l' & x & Q); [discriminate|eauto]. Qed.
Lemma silent_nil r sb : silent r sb [].
Proof.
  intros lc ld sc Q S0 _ fs If. destruct lc; [|discriminate]. apply some_inj in S0 as <-.
  rewrite <- (app_nil_r (p_in sb)) in If at 1. apply app_inv_head in If. subst fs. constructor.
Qed.
Lemma silent_snoc r sb lb l st st' : exec X cfg sb lb = Some st -> step X cfg st l = Some st' -> silent r sb lb ->
  (p_now st' < p_now sb + t -> p_now st < p_now sb + t /\
     forall f, p_in st' = p_in st ++ [f] -> ~ (f_opcode f = PONG /\ f_data f = r)) ->
  silent r sb (lb ++ [l]).
Proof.
  intros H S0 Si C lc ld sc Q Hc Lt fs If.
  destruct (exists_last' ld) as [-> |(ld' & y & ->)].
  - rewrite app_nil_r in Q. subst lc. rewrite exec_app in Hc. rewrite H in Hc. cbn [exec] in Hc. rewrite S0 in Hc.
    apply some_inj in Hc as <-. destruct (C Lt) as [C1 C2].
    destruct (in_exec X cfg sb lb st H) as (fs0 & If0).
    specialize (Si lb [] st (eq_sym (app_nil_r lb)) H C1 fs0 If0).
    destruct (in_step X cfg _ _ _ S0) as [Q|(f & Q)].
    + assert (fs = fs0) by (rewrite Q, If0 in If; apply app_inv_head in If; auto). now subst fs.
    + assert (fs = fs0 ++ [f]) by (rewrite Q, If0, <- app_assoc in If; apply app_inv_head in If; auto). subst fs.
      apply Forall_app. split; [exact Si|]. constructor; [now apply C2|constructor].
  - rewrite app_assoc in Q. apply app_inj_tail in Q as [Q _]. exact (Si lc ld' sc Q Hc Lt fs If).
Qed.

Lemma start_ping_out st by_ r st2 : start_ping X cfg st by_ r = (st2, None) -> random_ok st r = true ->
  (exists x, p_out st2 = p_out st ++ [x] /\ o_frame x = mkframe true PING r) /\
  In (r, length (p_pongs st)) (p_pings st2) /\ find_ping st2 r = Some (length (p_pongs st)).
Proof.
  intros H R. unfold random_ok in R. apply andb_prop in R as [_ R]. apply Bool.negb_true_iff in R.
  unfold start_ping, write_frame, write in H. cbv zeta in H.
  destruct (negb _); [discriminate|]. destruct (serialize _ _ _ _ _) as [x2 [data|e]]; [|discriminate].
  apply pair_equal_spec in H as [<- _]. split; [eexists; split; reflexivity|]. split.
  - cbn [p_pings set_out set_exts set_pings set_pongs]. rewrite in_app_iff. right. now left.
  - exact (find_ping_last st r (length (p_pongs st)) R).
Qed.
Lemma pinged_snoc exts ls la lb r sb st l st' : pinged exts ls la lb r sb st -> step X cfg st l = Some st' ->
  pinged exts (ls ++ [l]) la (lb ++ [l]) r sb st'.
Proof.
  intros (P1 & P2 & P3) S0. split; [rewrite P1, <- app_assoc; reflexivity|]. split; [|exact P3].
  rewrite exec_app, P2. cbn [exec]. now rewrite S0.
Qed.
Lemma now_grows st l st' : step X cfg st l = Some st' -> p_now st <= p_now st'.
Proof.
  intros H. destruct (classify_K l) as [[a ->]|N].
  - cbn [step] in H. apply step_K_shape in H as (? & ? & ? & ? & ? & ? & ? & ? & ->). cbn. lia.
  - assert (D : l = LOpen \/ l <> LOpen) by (destruct l; (now left) || (right; discriminate)).
    destruct D as [-> |D].
    + cbn [step] in H. destruct (p_state st); try discriminate. destruct (p_C st); try discriminate.
      apply some_inj in H as <-. cbn. lia.
    + pose proof (step_K_alone X cfg _ _ _ H N D) as (_ & -> & _). lia.
Qed.
Lemma done_not_pending futs w : done_fut futs w -> get_fut futs w <> FPending.
Proof. intros (f & Q & N). now rewrite (get_fut_nth _ _ _ Q). Qed.
Lemma Alarm_step exts ls st l st' : exec X cfg (initial exts) ls = Some st -> Base st -> Alarm exts ls st ->
  on_time X cfg st l -> flushed_at_once st l -> step X cfg st l = Some st' -> Alarm exts (ls ++ [l]) st'.
Proof.
  intros Ex Ba A OT FL H. destruct Ba as (Pi & _).
  assert (D : l = LOpen \/ l <> LOpen) by (destruct l; (now left) || (right; discriminate)).
  destruct D as [-> |D].
  { cbn [step] in H. destruct (p_state st); try discriminate. destruct (p_C st); try discriminate.
    apply some_inj in H as <-. exact Logic.I. }
  destruct (classify_K l) as [[a ->]|N].
  - pose proof H as H0. cbn [step] in H.
    assert (In_ : p_in st' = p_in st) by (now apply step_K_shape in H as (? & ? & ? & ? & ? & ? & ? & ? & ->)).
    assert (Now : p_now st' = p_now st) by (now apply step_K_shape in H as (? & ? & ? & ? & ? & ? & ? & ? & ->)).
    unfold step_K in H. unfold Alarm in A.
    destruct (p_K st) as [| |d|data| |w d|] eqn:HK; try discriminate; (destruct (p_Kcancel st);
      [destruct a; try discriminate; apply some_inj in H as <-; exact Logic.I|]).
    + destruct a; try discriminate. destruct (c_ping_interval cfg); apply some_inj in H as <-; exact Logic.I.
    + destruct a; try discriminate. destruct (_ <=? _); [|discriminate].
      destruct (ensure_open st); [|apply some_inj in H as <-; exact Logic.I|apply some_inj in H as <-; exact Logic.I].
      destruct (random_ok st r) eqn:R; [|discriminate].
      destruct (start_ping _ _ _ _ _) as [st2 [e|]] eqn:Q; apply some_inj in H as <-; [exact Logic.I|].
      destruct (start_ping_out _ _ _ _ Q R) as ((x & O1 & O2) & I1 & F1).
      cbn. exists ls, (length (p_pongs st)). split; [|split; [exact I1|exact F1]].
      split; [reflexivity|]. split; [reflexivity|]. exists st, x. auto.
    + specialize (FL data HK). injection FL as ->. cbn [after_drain] in H. apply some_inj in H as <-.
      destruct A as (la & w & Pg & I1 & F1). unfold after_ping in *. rewrite F1, CT in *. cbn.
      exists la, [LK DrainOk], data, st. split; [exact (pinged_snoc _ _ _ [] _ _ _ _ _ Pg H0)|]. split; [reflexivity|].
      split. { destruct Pi as (_ & _ & P3 & _). rewrite Forall_forall in P3. apply P3. apply in_map_iff. exists (data, w). auto. }
      left. split; [|now right].
      apply (silent_snoc data st [] (LK DrainOk) st (set_K (KPong w (p_now st + t)) st) eq_refl H0 (silent_nil data st)).
      cbn [p_now set_K p_in]. intros L. split; [exact L|]. intros f Q. apply (f_equal (@length frame)) in Q.
      rewrite app_length in Q. cbn [length] in Q. lia.
    + destruct a; try discriminate. destruct (ensure_open_end st); [|discriminate].
      apply some_inj in H as <-. exact Logic.I.
    + destruct a; try discriminate.
      * destruct (get_fut _ _); try discriminate; apply some_inj in H as <-; exact Logic.I.
      * destruct (_ <=? _); [|discriminate]. destruct (fail_connection _ _ _ _) as [st2 e2].
        apply some_inj in H as <-. exact Logic.I.
  - pose proof (step_K_alone X cfg _ _ _ H N D) as (SK & Now & _). unfold Alarm in *. rewrite SK.
    destruct (p_K st) as [| |d|data| |w d|] eqn:HK; try exact Logic.I.
    + specialize (FL data HK). subst l. now destruct (N DrainOk).
    + destruct A as (la & lb & r & sb & Pg & Hd & Lw & A). exists la, (lb ++ [l]), r, sb.
      split; [exact (pinged_snoc _ _ _ _ _ _ _ _ _ Pg H)|]. split; [exact Hd|].
      split; [pose proof (pongs_grow X cfg _ _ _ H); lia|].
      pose proof Pg as (_ & Eb & _).
      destruct A as [[Si [A|A]]|[A1 A2]].
      * left. pose proof (now_grows _ _ _ H). split; [|left; lia].
        apply (silent_snoc _ _ _ _ _ _ Eb H Si). lia.
      * assert (DN : done_fut (p_pongs st') w \/ ~ done_fut (p_pongs st') w).
        { destruct (nth_error (p_pongs st') w) as [f|] eqn:Q.
          - destruct f; [right|left|left]; try (exists FResult; split; [exact Q|discriminate]);
              try (eexists; split; [exact Q|discriminate]). intros (f & Q1 & Q2). congruence.
          - right. intros (f & Q1 & _). congruence. }
        destruct (N.lt_ge_cases (p_now st') d) as [Lt|Ge]; [destruct DN as [DN|DN]; [right; auto|]|].
        -- left. split.
           ++ apply (silent_snoc _ _ _ _ _ _ Eb H Si). intros _. split; [rewrite Hd; pose proof (now_grows _ _ _ H); lia|].
              intros f If [Hf Hr]. apply DN. exact (pong_done r w _ _ _ f Pi Lw A H If Hf Hr).
           ++ right. destruct (there_step r w _ _ _ Pi Lw (or_introl A) H) as [Q|Q]; [exact Q|contradiction].
        -- left. split; [|left; exact Ge]. apply (silent_snoc _ _ _ _ _ _ Eb H Si). lia.
      * right. split; [exact (done_stays w _ _ _ Pi A1 H)|].
        assert (Q : p_now st' = p_now st); [|lia]. rewrite Now. destruct l as [| | | | |e| | | | | | |]; try lia.
        pose proof (tick_bound X cfg st e 0 OT) as Tk. rewrite N.add_0_r in Tk.
        assert (Q : set_now (p_now st) st = st) by (now destruct st). rewrite Q in Tk.
        assert (R : keepalive_ready X cfg st) by (apply (ready_done X cfg st w d HK); now apply done_not_pending).
        specialize (Tk R). lia.
Qed.
Lemma Alarm_exec exts ls st : exec X cfg (initial exts) ls = Some st ->
  along X cfg (fun st l => on_time X cfg st l /\ flushed_at_once st l) (initial exts) ls -> Alarm exts ls st.
Proof.
  revert st. induction ls as [|l ls IH] using rev_ind; intros st H A.
  - apply some_inj in H as <-. exact Logic.I.
  - rewrite exec_app in H. destruct (exec X cfg (initial exts) ls) as [st1|] eqn:H1; [|discriminate].
    cbn [exec] in H. destruct (step X cfg st1 l) as [st2|] eqn:S1; [|discriminate]. apply some_inj in H as <-.
    apply along_app in A as [A1 A2]. specialize (A2 st1 H1). cbn [along] in A2. destruct A2 as [[A2 A3] _].
    apply (Alarm_step exts ls st1 l st2 H1); auto. exact (Base_exec X cfg _ _ _ H1).
Qed.
End Alarm.
