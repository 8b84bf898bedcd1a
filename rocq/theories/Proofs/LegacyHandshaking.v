(* The closing handshake isn't interrupted by an endpoint (asyncio API). *)
From Verif Require Import Base.Prelude Base.PreludeFacts Base.Utf8 Model.Streams Model.Frames
  Model.LegacyFraming Model.LegacyProtocol Spec.Messages Spec.Asyncio Spec.AsyncioKeepalive Spec.AsyncioHang Spec.AsyncioHandshake
  Proofs.LegacyShapes Proofs.LegacyUsers Proofs.LegacyFields Proofs.LegacyClose Proofs.LegacyQueue
  Proofs.LegacyMessages Proofs.LegacyFragments Proofs.LegacyTiming Proofs.LegacyRecv Proofs.LegacySend Proofs.LegacyKeepalive
  Proofs.LegacyHang Proofs.AtomicFacts Proofs.LegacyCloseOrigin.
Local Open Scope N_scope.

Section Handshaking.
Context {E : Type} (X : ext_ops E) (cfg : config).
Implicit Type st : conn E.
Context (AC : accepts_control X) (Keys : forall n, length (c_key cfg n) = 4%nat).
Context (Positive : c_close_timeout cfg <> Some 0).

(* what calls, keepalive_ping and close_connection do to the closing handshake: they don't interrupt it *)
Definition kt st st' : Prop :=
  p_Tcancel st' = p_Tcancel st /\ p_lost st' = p_lost st /\ p_C st' = p_C st /\
  (exists new, p_out st' = p_out st ++ new) /\ (p_state st' = p_state st \/ wrote_close st').
Lemma wrote_more st st' new : p_out st' = p_out st ++ new -> wrote_close st -> wrote_close st'.
Proof. intros Q (x & Hx & O). exists x. split; [rewrite Q; apply in_or_app; now left|exact O]. Qed.
Lemma kt_same st st' : p_Tcancel st' = p_Tcancel st -> p_lost st' = p_lost st -> p_C st' = p_C st -> p_out st' = p_out st ->
  p_state st' = p_state st -> kt st st'.
Proof. intros A B F C D. split; [exact A|]. split; [exact B|]. split; [exact F|]. split; [exists []; now rewrite app_nil_r|now left]. Qed.
Lemma kt_trans st st1 st2 : kt st st1 -> kt st1 st2 -> kt st st2.
Proof.
  intros (A1 & B1 & F1 & (n1 & C1) & D1) (A2 & B2 & F2 & (n2 & C2) & D2).
  split; [congruence|]. split; [congruence|]. split; [congruence|]. split; [exists (n1 ++ n2); now rewrite C2, C1, app_assoc|].
  destruct D2 as [D2|D2]; [|now right]. destruct D1 as [D1|D1]; [left; congruence|right; exact (wrote_more _ _ _ C2 D1)].
Qed.
Lemma kt_refl st : kt st st.
Proof. now apply kt_same. Qed.
Ltac kt := intros; first [now apply kt_same|eassumption|eapply kt_trans; [eassumption|now apply kt_same]].

Lemma write_kt st by_ f st' e : write X cfg st by_ f = (st', e) -> kt st st'.
Proof.
  unfold write. destruct (serialize _ _ _ _ _) as [exts r]. intros H.
  destruct r; apply pair_equal_spec in H as [<- _]; [|kt].
  split; [reflexivity|]. split; [reflexivity|]. split; [reflexivity|]. split; [now exists [Sent by_ f a]|now left].
Qed.
Lemma write_frame_kt st by_ fin op data expected st' e :
  write_frame X cfg st by_ fin op data expected = (st', e) -> kt st st'.
Proof.
  unfold write_frame. destruct (negb _); [|apply write_kt]. intros H. apply pair_equal_spec in H as [<- _]. kt.
Qed.
Lemma write_close_frame_kt st by_ data st' r : lenN data <= 125 ->
  write_close_frame X cfg st by_ data = (st', r) ->
  kt st st' /\ p_T st' = p_T st /\ p_in st' = p_in st /\ p_close st' = p_close st /\ p_reader st' = p_reader st /\
  (p_state st = Open -> wrote_close st' /\ p_state st' = Closing /\ r = Some None) /\ (p_state st <> Open -> r = None /\ st' = st).
Proof.
  intros L. unfold write_close_frame. destruct (p_state st) eqn:Ps; cbn [is_open].
  1,3,4: intros H; apply pair_equal_spec in H as [<- <-]; split; [apply kt_refl|]; rewrite ?Ps; repeat (split; [reflexivity|]); split; [discriminate|auto].
  unfold write_frame. cbn [set_state p_state pstate_eqb negb].
  destruct (write_control X cfg AC Keys (set_state Closing st) by_ CLOSE data eq_refl L) as (exts & w & ->).
  intros H. apply pair_equal_spec in H as [<- <-].
  assert (W : wrote_close (set_out (p_out (set_state Closing st) ++ [Sent by_ (mkframe true CLOSE data) w])
    (set_exts exts (set_state Closing st)))).
  { eexists. split; [apply in_or_app; right; now left|reflexivity]. }
  split.
  { split; [reflexivity|]. split; [reflexivity|]. split; [reflexivity|]. split; [now exists [Sent by_ (mkframe true CLOSE data) w]|now right]. }
  repeat (split; [reflexivity|]). split; [auto|]. intros Q. now contradiction Q.
Qed.
Lemma start_ping_kt st by_ data st' e : start_ping X cfg st by_ data = (st', e) -> kt st st'.
Proof. unfold start_ping. cbv zeta. intros H. apply write_frame_kt in H. eapply kt_trans; [|exact H]. kt. Qed.
Ltac written W := first [apply start_ping_kt in W|apply write_frame_kt in W].
Lemma after_drain_kt st a st' r : p_lost st = None -> after_drain X cfg st a = Some (st', r) -> a = DrainOk /\ st' = st /\ r = EOk.
Proof.
  intros L. unfold after_drain. rewrite L. destruct a; try discriminate.
  intros H. apply some_inj, pair_equal_spec in H as [<- <-]. auto.
Qed.

Section Call.
Variable i : nat.
Lemma recv_loop_kt st : kt st (recv_loop st i).
Proof.
  unfold recv_loop. destruct (p_messages st).
  - destruct (T_exists _); kt.
  - change (p_put (set_messages l st)) with (p_put st). destruct (p_put st); [|kt].
    destruct (set_result _ _); kt.
Qed.
Lemma recv_resume_kt st w : kt st (recv_resume cfg st i w).
Proof.
  unfold recv_resume. destruct (fut_done _).
  - eapply kt_trans; [|apply recv_loop_kt]. kt.
  - destruct (c_legacy_recv cfg); [kt|]. destruct (ensure_open _); [|kt|kt].
    eapply kt_trans; [|apply recv_loop_kt]. kt.
Qed.
(* unless the call raises an exception *)
Definition ex st' st : Prop := ~ raised i st' -> kt st st'.
Lemma ex_kt st st' : kt st st' -> ex st' st.
Proof. intros H _. exact H. Qed.
Lemma ex_trans st st1 st' : kt st st1 -> ex st' st1 -> ex st' st.
Proof. intros H G F. eapply kt_trans; [exact H|exact (G F)]. Qed.
Lemma end_fragments_kt st r : kt st (end_fragments st i r).
Proof. unfold end_fragments. destruct (p_frag st); [|kt]. destruct (set_result _ _); kt. Qed.
Lemma raise_fragments_kt st e : ex (raise_fragments X cfg st i e) st.
Proof.
  intros H. exfalso. apply H. unfold raise_fragments.
  destruct (fail_connection X cfg st 1011) as [st2 e2]. destruct e; apply end_fragments_raised.
Qed.
Lemma send_item_kt st op rest d : ex (send_item X cfg st i op rest d) st.
Proof.
  unfold send_item. destruct (prepare_data d) as [[op' data]|e] eqn:Pd; [|apply raise_fragments_kt].
  destruct (negb _); [apply raise_fragments_kt|].
  destruct (write_frame _ _ _ _ _ _ _ _) as [st2 e] eqn:W. written W. destruct e.
  - apply (ex_trans _ _ _ W), raise_fragments_kt.
  - apply ex_kt. kt.
Qed.
Lemma send_last_kt st : ex (send_last X cfg st i) st.
Proof.
  unfold send_last.
  destruct (write_frame _ _ _ _ _ _ _ _) as [st2 e] eqn:W. written W. destruct e.
  - apply (ex_trans _ _ _ W), raise_fragments_kt.
  - apply ex_kt. kt.
Qed.
Lemma send_next_kt st op src : ex (send_next X cfg st i op src) st.
Proof.
  destruct src as [[|d items] [e|]|]; cbn [send_next];
    [apply raise_fragments_kt|apply send_last_kt|apply send_item_kt|apply send_item_kt|apply ex_kt; kt].
Qed.
Lemma send_first_kt st rest d : ex (send_first X cfg st i rest d) st.
Proof.
  unfold send_first. destruct (prepare_data d) as [[op data]|e] eqn:Pd; [|apply ex_kt; kt].
  destruct (write_frame _ _ _ _ _ _ _ _) as [st2 e] eqn:W. written W.
  match type of W with kt ?s _ => apply (ex_trans _ s); [now apply kt_same|] end. destruct e.
  - apply (ex_trans _ _ _ W), raise_fragments_kt.
  - apply ex_kt. kt.
Qed.
Lemma send_loop_kt st m : ex (send_loop X cfg st i m) st.
Proof.
  unfold send_loop. destruct (p_frag st); [apply ex_kt; kt|].
  destruct m as [d| |[|d items] [e|]| |]; try (apply ex_kt; kt; fail); try apply send_first_kt.
  destruct (prepare_data d) as [[op data]|e] eqn:Pd; [|apply ex_kt; kt].
  destruct (write_frame _ _ _ _ _ _ _ _) as [st2 e] eqn:W. written W. destruct e; apply ex_kt; kt.
Qed.
Lemma close_wait_T_kt st t0 : kt st (close_wait_T cfg st i t0).
Proof. unfold close_wait_T. destruct (T_exists st); kt. Qed.
Lemma close_start_kt st code reason : (forall x, utf8_encode reason = Ok x -> lenN x <= 123) -> kt st (close_start X cfg st i code reason).
Proof.
  intros Sr. unfold close_start. destruct (serialize_close _ _) eqn:Sc; [|kt].
  apply close_payload in Sc; [|exact Sr].
  assert (G : kt st
     match write_close_frame X cfg st (ByCall i) a with
     | (st2, Some (Some e)) => raise_ i (PyExn e) st2
     | (st2, Some None) => set_user i (UCloseWrite (deadline st2 (c_close_timeout cfg)) (p_now st2)) st2
     | (st2, None) => close_wait_T cfg st2 i (p_now st2)
     end).
  { destruct (write_close_frame _ _ _ _ _) as [st2 r] eqn:W. apply write_close_frame_kt in W as (W & _); [|exact Sc].
    destruct r as [[e|]|]; [kt|kt|]. eapply kt_trans; [|apply close_wait_T_kt]. kt. }
  destruct (c_close_timeout cfg) as [[|q]|]; [contradiction|exact G|exact G].
Qed.
Lemma cancel_call_kt st pc : (sending pc -> ~ raised i (cancel_call X cfg st i pc)) -> ~ in_close pc -> kt st (cancel_call X cfg st i pc).
Proof.
  unfold cancel_call. intros Fr Nc. destruct pc; try (kt; fail); try (apply raise_fragments_kt; exact (Fr Logic.I)).
  - destruct op; [apply raise_fragments_kt; exact (Fr Logic.I)|kt].
  - destruct (Nc Logic.I).
Qed.

Ltac some_kt H := apply some_inj in H as <-.

Lemma start_call_kt st c a st' : (forall code reason x, c = CallClose code reason -> utf8_encode reason = Ok x -> lenN x <= 123) ->
  ((exists m, c = CallSend m) -> ~ raised i st') -> start_call X cfg st i c a = Some st' -> kt st st'.
Proof.
  intros Sm Fr. unfold start_call. intros H. destruct c; destruct a; try discriminate; try some_kt H.
  - destruct (p_pop st); [kt|apply recv_loop_kt].
  - destruct (ensure_open st); [apply send_loop_kt; apply Fr; eauto|kt|kt].
  - apply close_start_kt. intros x Hx. eapply Sm; [reflexivity|exact Hx].
  - destruct (ensure_open st); [|some_kt H; kt|some_kt H; kt]. destruct data as [d|].
    + destruct (prepare_ctrl d); [|some_kt H; kt].
      destruct (has_ping _ _); [some_kt H; kt|].
      destruct (start_ping _ _ _ _ _) as [st2 e] eqn:W. written W. destruct e; some_kt H; kt.
    + destruct (random_ok _ _); [|discriminate].
      destruct (start_ping _ _ _ _ _) as [st2 e] eqn:W. written W. destruct e; some_kt H; kt.
  - destruct (ensure_open st); [|kt|kt]. destruct (prepare_ctrl data); [|kt].
    destruct (write_frame _ _ _ _ _ _ _ _) as [st2 e] eqn:W. written W. destruct e; kt.
  - kt.
Qed.
Lemma step_call_kt st pc a st' : (forall code reason x, pc = UStart (CallClose code reason) -> utf8_encode reason = Ok x -> lenN x <= 123) ->
  (sending pc -> ~ raised i st') -> a <> Timeout -> p_lost st = None -> step_call X cfg st i pc a = Some st' -> kt st st'.
Proof.
  intros Sm Fr Nt Lo.
  assert (D : forall (k1 : conn E -> conn E) (k2 : conn E -> pexn -> conn E) (k3 : conn E -> conn E),
    (forall s, k1 s = st' -> kt s (k1 s)) ->
    match after_drain X cfg st a with
    | Some (s2, EOk) => Some (k1 s2)
    | Some (s2, ERaise e) => Some (k2 s2 e)
    | Some (s2, EWait) => Some (k3 s2)
    | None => None
    end = Some st' -> kt st st').
  { intros k1 k2 k3 H1 H. destruct (after_drain _ _ _ _) as [[s2 r]|] eqn:Q; [|discriminate].
    apply after_drain_kt in Q as (_ & -> & ->); [|exact Lo]. some_kt H. now apply H1. }
  unfold step_call. intros H. destruct pc.
  - eapply start_call_kt; [| |exact H]; [intros code reason x ->; apply (Sm code reason x eq_refl)|]. intros [m ->]. exact (Fr Logic.I).
  - destruct a; try discriminate. destruct (_ || _); [|discriminate]. some_kt H. apply recv_resume_kt.
  - destruct a; try discriminate. destruct (fut_done _); [|discriminate]. some_kt H. apply send_loop_kt. exact (Fr Logic.I).
  - destruct a; try discriminate. destruct (ensure_open_end st); [|discriminate]. some_kt H. kt.
  - eapply (D (fun s => return_ i RNone s) (fun s e => raise_ i e s) (fun s => set_user i UEnsure s)); [kt|exact H].
  - eapply (D (fun s => send_next X cfg s i op rest) (fun s e => raise_fragments X cfg s i e)
             (fun s => set_user i UFragEnsure s)); [intros s1 Q; apply send_next_kt; rewrite Q; exact (Fr Logic.I)|exact H].
  - eapply (D (fun s => end_fragments s i RNone) (fun s e => raise_fragments X cfg s i e)
             (fun s => set_user i UFragEnsure s)); [intros; apply end_fragments_kt|exact H].
  - destruct a; try discriminate. destruct (ensure_open_end st); [|discriminate]. some_kt H.
    apply raise_fragments_kt. exact (Fr Logic.I).
  - destruct op; destruct a as [| | | | |[]]; try discriminate; some_kt H;
      first [apply send_item_kt; exact (Fr Logic.I)|apply send_last_kt; exact (Fr Logic.I)|apply raise_fragments_kt; exact (Fr Logic.I)
            |apply send_first_kt; exact (Fr Logic.I)|kt].
  - eapply (D (fun s => match find_ping s data with
                        | Some w => return_ i (RPing w) s
                        | None => raise_ i (PyExn KeyError) s end) (fun s e => raise_ i e s)
              (fun s => set_user i UEnsure s)); [intros; destruct (find_ping s data); kt|exact H].
  - assert (G : match after_drain X cfg st a with
                | Some (st, EOk) => Some (close_wait_T cfg st i t0)
                | Some (st, ERaise e) => Some (raise_ i e st)
                | Some (st, EWait) => Some (set_user i (UCloseEnsure d t0) st)
                | None => None
                end = Some st' -> kt st st').
    { apply (D (fun s => close_wait_T cfg s i t0) (fun s e => raise_ i e s)
             (fun s => set_user i (UCloseEnsure d t0) s)); intros; apply close_wait_T_kt. }
    destruct a; now apply G.
  - destruct a; try discriminate; try (now contradiction Nt).
    destruct (ensure_open_end st); [|discriminate]. some_kt H. kt.
  - destruct a; try discriminate; try (now contradiction Nt).
    destruct (p_T st) as [| | | | | | |[e|]] eqn:HT; try discriminate; some_kt H; kt.
  - destruct a; try discriminate. destruct (T_done st); [|discriminate]. some_kt H. kt.
  - destruct a; try discriminate.
    destruct (p_C st) as [| | | | | | |[e|]]; try discriminate; some_kt H; kt.
  - destruct a; try discriminate. destruct (is_lost st); [|discriminate]. some_kt H. kt.
  - discriminate.
Qed.
Lemma step_user_kt st a st' :
  (forall code reason x c, nth_error (p_users st) i = Some (UStart (CallClose code reason), c) -> utf8_encode reason = Ok x -> lenN x <= 123) ->
  (forall pc c, nth_error (p_users st) i = Some (pc, c) -> sending pc -> ~ raised i st') ->
  (forall pc, nth_error (p_users st) i = Some (pc, true) -> ~ in_close pc) ->
  a <> Timeout -> p_lost st = None ->
  step_user X cfg st i a = Some st' -> kt st st'.
Proof.
  intros Sm Fr Nc Nt Lo. unfold step_user. destruct (nth_error _ _) as [[pc c]|] eqn:Hu; [|discriminate].
  assert (G : step_call X cfg st i pc a = Some st' -> kt st st') by
    (apply step_call_kt; [intros code reason x ->; exact (Sm code reason x c eq_refl)|exact (Fr pc c eq_refl)|exact Nt|exact Lo]).
  assert (G' : c = true -> match a with Go => Some (cancel_call X cfg st i pc) | _ => None end = Some st' ->
               kt st st').
  { intros ->. destruct a; try discriminate. intros H'. apply some_inj in H' as <-. apply cancel_call_kt; [exact (Fr pc true eq_refl)|exact (Nc pc eq_refl)]. }
  destruct c; destruct pc; try discriminate; auto.
Qed.
End Call.
Lemma step_K_kt st a st' : a <> Timeout -> p_lost st = None -> step_K X cfg st a = Some st' -> kt st st'.
Proof.
  intros Nt Lo H. unfold step_K in H.
  destruct (p_K st); try discriminate; (destruct (p_Kcancel st);
    [destruct a; try discriminate; apply some_inj in H as <-; kt|]).
  - destruct a; try discriminate. destruct (c_ping_interval cfg); apply some_inj in H as <-; kt.
  - destruct a; try discriminate. destruct (_ <=? _); [|discriminate].
    destruct (ensure_open st); [|apply some_inj in H as <-; kt|apply some_inj in H as <-; kt].
    destruct (random_ok _ _); [|discriminate].
    destruct (start_ping _ _ _ _ _) as [st2 e2] eqn:Q. apply start_ping_kt in Q.
    destruct e2; apply some_inj in H as <-; (eapply kt_trans; [exact Q|]; kt).
  - destruct (after_drain X cfg st a) as [[st2 r]|] eqn:D; [|discriminate]. apply after_drain_kt in D as (_ & -> & ->); [|exact Lo].
    apply some_inj in H as <-.
    unfold after_ping. destruct (find_ping _ _); [|kt].
    destruct (c_ping_timeout cfg); [|kt]. try destruct (_ =? _); kt.
  - destruct a; try discriminate. destruct (ensure_open_end st); [|discriminate].
    apply some_inj in H as <-. kt.
  - destruct a; try discriminate; try (now contradiction Nt).
    destruct (get_fut _ _); try discriminate; apply some_inj in H as <-; kt.
Qed.

(** transfer_data *)
(* the state of an endpoint that hasn't received a Close frame *)
Record Q st : Prop := {
  Q_cancel : p_Tcancel st = false; Q_lost : p_lost st = None; Q_eof : r_eof (p_reader st) = false;
  Q_T : ~ closing_T (p_T st); Q_ping : (exists c, p_T st = TPongEnsure c) -> last_is_ping st;
  Q_state : p_state st = Closing -> wrote_close st;
  Q_C : (p_T st = TNone -> p_C st = CNone) /\ (p_C st = CNone \/ p_C st = CStart \/ p_C st = CWaitT);
  Q_users : forall i pc, nth_error (p_users st) i = Some (pc, true) -> ~ in_close pc }.
(* the frames received don't make transfer_data raise an exception *)
Definition harmless st : Prop := forall c, p_T st = TRead c ->
  (forall e r exts, run (legacy_read X (negb (c_client cfg)) (read_limit cfg c)) (p_reader st) (p_exts st) <> OFail e r exts) /\
  (forall f r exts, run (legacy_read X (negb (c_client cfg)) (read_limit cfg c)) (p_reader st) (p_exts st) = ODone f r exts ->
    (f_opcode f = CLOSE -> lenN (f_data f) <= 125 /\ exists k, parse_close (f_data f) = Ok k) /\
    (f_opcode f = PING -> lenN (f_data f) <= 125) /\
    (is_data_b f = true -> forall e, read_message cfg c f <> RExn e)).
Definition proceeds st st' : Prop := (p_close st' = None -> Q st') /\ (p_close st' <> None -> wrote_close st').
Ltac same_T := try assumption; try (intros []; fail); try (intros [? ?]; discriminate); try (split; [first [discriminate|assumption]|assumption]).
Ltac same_Q := constructor; same_T.
Lemma put_message_Q st m : Q st -> popping st -> p_close st = None -> proceeds st (put_message X cfg st m).
Proof.
  intros [A B C D F G K H] Pp Cl. destruct K as [K1 K2]. unfold put_message. destruct (room cfg st).
  - change (p_pop (set_messages _ st)) with (p_pop st). change (p_pops (set_messages _ st)) with (p_pops st).
    destruct (p_pop st) as [w|] eqn:P.
    + rewrite (set_result_pending _ _ (Pp w P)). split; [|intros Z; now contradiction Z].
      intros _. same_Q.
    + split; [|intros Z; now contradiction Z].
      intros _. same_Q.
  - split; [|intros Z; now contradiction Z].
    intros _. same_Q.
Qed.
Lemma step_T_Q st a st' : Q st -> p_close st = None -> popping st -> Lost st -> LegacyClose.Started st -> harmless st ->
  step_T X cfg st a = Some st' -> proceeds st st'.
Proof.
  intros I Cl Pp Ls Sd Hm H. pose proof I as [A B C D F G [K1 K2] U]. unfold step_T in H. rewrite A in H.
  assert (Nc : p_T st <> TNone -> p_state st = Open \/ p_state st = Closing).
  { intros Nn. specialize (Sd Nn). destruct (p_state st) eqn:Ps; auto; [now contradiction Sd|].
    exfalso. apply (proj2 Ls); auto. }
  destruct (p_T st) as [|c|c|c|c|c|m w|e] eqn:HT; try discriminate; try (destruct (D Logic.I)).
  - destruct a; try discriminate. unfold read_frame in H. rewrite B in H.
    destruct (Hm c HT) as [Nf Ok].
    pose proof (eof_stays (legacy_read X (negb (c_client cfg)) (read_limit cfg c)) (p_reader st) (p_exts st)) as Er.
    destruct (run _ _ _) as [? ? ?|f r ex|e r ex] eqn:Run; cbv zeta in H; try discriminate; [|destruct (Nf e r ex eq_refl)].
    specialize (Ok f r ex eq_refl) as (Ok1 & Ok2 & Ok3). apply some_inj in H as <-.
    rewrite C in Er. set (st1 := set_in _ _).
    assert (Q1 : Q (set_T (TRead c) st1)) by (same_Q).
    assert (I1 : Q st1).
    { unfold st1; constructor; try assumption; cbn [p_T p_C set_in set_reader set_exts]; rewrite HT; same_T. }
    unfold on_frame.
    assert (Dt : is_data_b f = true -> proceeds st match read_message cfg c f with
         | RMsg m => put_message X cfg st1 m
         | RNext c => set_T (TRead c) st1
         | RExn e => T_raise X cfg st1 (PyExn e)
         end).
    { intros Df. destruct (read_message cfg c f) eqn:Rm; [| |destruct (Ok3 Df _ eq_refl)].
      - apply put_message_Q; assumption.
      - split; [|intros Z; now contradiction Z]. intros _. same_Q. }
    unfold is_data_b in Dt. destruct (f_opcode f) eqn:Op; try (exact (Dt eq_refl)).
    + destruct (Ok1 eq_refl) as (Ln & k & Pc). rewrite Pc.
      destruct (write_close_frame _ _ _ _ _) as [st2 r2] eqn:W. 
      apply write_close_frame_kt in W as (_ & _ & _ & Pcl & _ & Wo & Wn); [|exact Ln].
      change (p_state (set_close _ st1)) with (p_state st) in *. change (p_close (set_close (Some k) st1)) with (Some k) in Pcl.
      destruct Nc as [Ps|Ps]; [discriminate| |].
      * destruct (Wo Ps) as (Ww & _ & ->). split; [|intros _; exact Ww].
        intros Z. exfalso. change (p_close st2 = None) in Z. congruence.
      * destruct Wn as (-> & ->); [rewrite Ps; discriminate|].
        destruct (after_close_quiet X cfg (set_close (Some k) st1) c) as (_ & _ & Pc2 & _).
        split; [intros Z; rewrite Pc2 in Z; discriminate|]. intros _.
        destruct (after_close_ow X cfg (fun _ _ _ => True) (fun _ => True) (set_close (Some k) st1) c) as [(new & Gr & _) _]; [left; intros e; now right|]. eapply wrote_more; [exact Gr|]. exact (G Ps).
    + destruct (ensure_open st1) eqn:Eo.
      * unfold write_frame. unfold ensure_open in Eo. destruct (p_state st1) eqn:Ps; try discriminate. cbn [pstate_eqb negb].
        destruct (write_control X cfg AC Keys st1 ByTransfer PONG (f_data f) eq_refl (Ok2 eq_refl)) as (exts & w & ->).
        split; [|intros Z; now contradiction Z]. intros _.
        same_Q.
        intros Z. change (p_state st1 = Closing) in Z. congruence.
      * unfold ensure_open in Eo. change (p_state st1) with (p_state st) in Eo.
        destruct Nc as [Ps|Ps]; [discriminate| |]; rewrite Ps in Eo; [destruct (T_done st1); discriminate|discriminate].
      * split; [|intros Z; now contradiction Z]. intros _. same_Q.
        intros _. exists (p_in st), f. now split.
    + destruct (receive_pong_shape st1 (f_data f)) as (? & ? & ->). split; [|intros Z; now contradiction Z].
      intros _. same_Q.
  - destruct (after_drain X cfg st a) as [[st2 r]|] eqn:Dr; [|discriminate]. apply after_drain_kt in Dr as (_ & -> & ->); [|exact B].
    apply some_inj in H as <-. split; [|intros Z; now contradiction Z].
    intros _. same_Q.
  - destruct a; try discriminate. unfold ensure_open_end in H.
    destruct K2 as [K2|[K2|K2]]; rewrite K2 in H; discriminate.
  - destruct a; try discriminate. destruct (fut_done _); [|discriminate]. apply some_inj in H as <-.
    apply put_message_Q; try assumption. constructor; try assumption; cbn [set_put p_T p_C]; rewrite HT; same_T.
Qed.

(** All steps *)
Definition calm st (l : label) : Prop :=
  match l with
  | LFail _ | LEof | LLost _ _ | LK Timeout | LUser _ Timeout => False
  | LCancel i => forall pc c, nth_error (p_users st) i = Some (pc, c) -> ~ in_close pc
  | _ => True
  end.
Lemma users_Q st l st' : Waiters st -> calm st l ->
  (forall i pc, nth_error (p_users st) i = Some (pc, true) -> ~ in_close pc) -> step X cfg st l = Some st' ->
  forall i pc, nth_error (p_users st') i = Some (pc, true) -> ~ in_close pc.
Proof.
  intros W Ca U H i pc Hi.
  assert (D : (exists a, l = LUser i a) \/ forall a, l <> LUser i a).
  { destruct l; try (right; intros ? ?; discriminate). destruct (Nat.eq_dec i0 i); [left; subst; eauto|right; congruence]. }
  destruct D as [(a & ->)|D].
  - cbn [step] in H. destruct (step_user_left X cfg st i a st' H) as (pc' & U' & _).
    exfalso. assert (Lt : (i < length (p_users st))%nat).
    { apply nth_error_Some. intros Z. unfold step_user in H. rewrite Z in H. discriminate. }
    rewrite U', nth_error_replace_eq in Hi by exact Lt. discriminate.
  - destruct (nth_error (p_users st) i) as [[pc0 c0]|] eqn:Hi0.
    + destruct (step_other_user X cfg st l st' i pc0 c0 W D H Hi0) as (c' & P1 & _ & P3).
      rewrite Hi in P1. injection P1 as <- <-.
      assert (Dc : l = LCancel i \/ l <> LCancel i).
      { destruct l; try (right; discriminate). destruct (Nat.eq_dec i0 i); [left; congruence|right; congruence]. }
      destruct Dc as [->|Dc]; [exact (Ca pc c0 Hi0)|]. specialize (P3 Dc). subst c0. exact (U i pc Hi0).
    + destruct (step_length X cfg st l st' W H) as [Eq|(c & -> & Eq)].
      * apply nth_error_None in Hi0. rewrite <- Eq in Hi0. apply nth_error_None in Hi0. congruence.
      * apply nth_error_None in Hi0. rewrite Eq, nth_error_app2 in Hi by exact Hi0.
        destruct (i - length (p_users st))%nat as [|[|?]]; discriminate.
Qed.
Lemma kt_Q st st' : Q st -> kt st st' -> p_T st' = p_T st -> p_in st' = p_in st -> p_reader st' = p_reader st ->
  (forall i pc, nth_error (p_users st') i = Some (pc, true) -> ~ in_close pc) -> Q st'.
Proof.
  intros [A B C D F G K U] (K1 & K2 & K3 & (new & K4) & K5) HT HI HR HU.
  constructor; rewrite ?K1, ?K2, ?HR, ?HT, ?K3; auto.
  - unfold last_is_ping. now rewrite HI.
  - intros Ps. destruct K5 as [K5|K5]; [|exact K5]. rewrite K5 in Ps. exact (wrote_more _ _ _ K4 (G Ps)).
Qed.
Lemma step_Q st l st' : Base st -> Waiters st -> popping st -> Q st -> p_close st = None -> calm st l ->
  (forall i a pc c, l = LUser i a -> nth_error (p_users st) i = Some (pc, c) -> sending pc -> ~ raised i st') ->
  (forall i code reason x c, nth_error (p_users st) i = Some (UStart (CallClose code reason), c) -> utf8_encode reason = Ok x -> lenN x <= 123) ->
  harmless st -> step X cfg st l = Some st' -> proceeds st st'.
Proof.
  intros (_ & Ls & _ & Sd) W Pp I Cl Ca Fr Sm Hm H.
  assert (U' := users_Q st l st' W Ca (Q_users st I) H).
  assert (G : kt st st' -> p_T st' = p_T st -> p_in st' = p_in st -> p_reader st' = p_reader st -> p_close st' = p_close st -> proceeds st st').
  { intros K HT HI HR HC. split; [|intros Z; congruence]. intros _. exact (kt_Q st st' I K HT HI HR U'). }
  pose proof I as [A B C D F Gs [K1 K2] U].
  destruct l; cbn [step calm] in *; try contradiction.
  - destruct (p_state st) eqn:Ps; try discriminate. destruct (p_C st); try discriminate. apply some_inj in H as <-.
    split; [|intros Z; now contradiction Z]. intros _. constructor; try assumption; try (intros []; fail).
    + intros [c Z]; discriminate.
    + discriminate.
    + split; [discriminate|]. right. now left.
  - rewrite C in H. apply some_inj in H as <-. split; [|intros Z; now contradiction Z]. intros _.
    constructor; try assumption; [reflexivity|now split].
  - apply some_inj in H as <-. apply G; try reflexivity. apply kt_same; reflexivity.
  - apply some_inj in H as <-. apply G; try reflexivity. apply kt_same; reflexivity.
  - apply some_inj in H as <-. apply G; try reflexivity. apply kt_same; reflexivity.
  - destruct (nth_error (p_users st) i) as [[pc0 c0]|] eqn:Hj; [|discriminate].
    assert (H' : set_users (replace i (pc0, true) (p_users st)) st = st')
      by (destruct pc0; try discriminate; now apply some_inj in H).
    subst st'. apply G; try reflexivity. apply kt_same; reflexivity.
  - exact (step_T_Q st a st' I Cl Pp Ls Sd Hm H).
  - pose proof H as H'. apply step_K_kt in H'; [|intros ->; exact Ca|exact B].
    apply step_K_shape in H as (? & ? & ? & ? & ? & ? & ? & ? & ->). apply G; [exact H'|reflexivity..].
  - assert (HC : p_T st <> TNone /\ p_C st = CStart /\ st' = set_C CWaitT st).
    { unfold step_C in H. destruct K2 as [K2|[K2|K2]]; rewrite K2 in H.
      - destruct a; discriminate.
      - destruct a; try discriminate. destruct (T_exists st) eqn:Te.
        + apply some_inj in H as <-. split; [|now split]. unfold T_exists in Te. intros Z. rewrite Z in Te. discriminate.
        + exfalso. assert (HT : p_T st = TNone) by (unfold T_exists in Te; destruct (p_T st); try discriminate; reflexivity).
          specialize (K1 HT). congruence.
      - destruct a; try discriminate. destruct (p_T st) as [| | | | | | |[]]; try discriminate; destruct (D Logic.I). }
    destruct HC as (Nn & HC & ->). split; [|intros Z; now contradiction Z]. intros _. constructor; try assumption.
    split; [intros Z; contradiction|]. right. now right.
  - pose proof H as H'. apply step_user_kt in H'; [| | | | |exact B].
    + apply step_user_still in H as (H1 & H2 & H3 & H4 & H5 & _). apply G; assumption.
    + intros code reason x c. apply Sm.
    + intros pc c. exact (Fr i a pc c eq_refl).
    + exact (U i).
    + intros ->. exact Ca.
Qed.
Lemma Q_initial exts : Q (initial exts).
Proof.
  constructor; try reflexivity; try (intros []; fail); [intros [c Z]; discriminate|discriminate|split; [reflexivity|now left]|].
  intros i pc Z. destruct i; discriminate.
Qed.
End Handshaking.
