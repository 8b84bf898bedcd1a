(* Where close frames come from: calls to close(), close frames received, and failures. *)
From Verif Require Import Spec.Messages.
From Verif Require Import Base.Prelude Base.PreludeFacts Model.Streams Model.Frames
  Model.LegacyFraming Model.LegacyProtocol Spec.Asyncio
  Proofs.LegacyShapes Proofs.LegacyUsers Proofs.LegacyFields Proofs.LegacyClose Proofs.LegacyQueue
  Proofs.LegacyMessages Proofs.LegacyFragments Proofs.LegacyTiming Proofs.LegacyRecv Proofs.LegacySend Proofs.LegacyAuthors.
Local Open Scope N_scope.

Section Origin.
Context {E : Type} (X : ext_ops E) (cfg : config).
Implicit Type st : conn E.
(* the calls to close(), and the codes with which the connection may be failed *)
Variable Call : nat -> Z -> str -> Prop.
Variable Fails : Z -> Prop.
Definition origin (inp : list frame) (w : writer) (data : bytes) : Prop :=
  match w with
  | ByCall i => exists code reason, Call i code reason /\ serialize_close code reason = Ok data
  | ByTransfer => exists f, In f inp /\ f_opcode f = CLOSE /\ f_data f = data /\ exists k, parse_close data = Ok k
  | ByFailure => exists code, Fails code /\ code <> 1006%Z /\ serialize_close code [] = Ok data
  | ByKeepalive => False
  end.
Definition Has (inp : list frame) (x : sent) : Prop :=
  f_opcode (o_frame x) = CLOSE -> origin inp (o_by x) (f_data (o_frame x)).
Definition ow st st' : Prop :=
  (exists new, p_out st' = p_out st ++ new /\ Forall (Has (p_in st')) new) /\
  exists more, p_in st' = p_in st ++ more.
Lemma Has_more inp more x : Has inp x -> Has (inp ++ more) x.
Proof.
  intros H C. specialize (H C). revert H. unfold origin. destruct (o_by x); auto.
  intros (f & H1 & H2). exists f. split; [apply in_or_app; now left|exact H2].
Qed.
Lemma ow_same st st' : p_out st' = p_out st -> p_in st' = p_in st -> ow st st'.
Proof. intros H1 H2. split; exists []; rewrite app_nil_r; [split; [exact H1|constructor]|exact H2]. Qed.
Lemma ow_trans st st1 st2 : ow st st1 -> ow st1 st2 -> ow st st2.
Proof.
  intros [(n1 & H1 & F1) (m1 & I1)] [(n2 & H2 & F2) (m2 & I2)]. split.
  - exists (n1 ++ n2). rewrite H2, H1, app_assoc. split; [reflexivity|]. apply Forall_app. split; [|exact F2].
    revert F1. apply Forall_impl. intros x. rewrite I2. apply Has_more.
  - exists (m1 ++ m2). now rewrite I2, I1, app_assoc.
Qed.
Lemma ow_refl st : ow st st.
Proof. now apply ow_same. Qed.
Ltac ow := intros; first [now apply ow_same|eassumption|eapply ow_trans; [eassumption|now apply ow_same]].
Definition may_fail (code : Z) : Prop := code = 1006%Z \/ Fails code.

Lemma write_ow st by_ f st' e : (f_opcode f = CLOSE -> origin (p_in st) by_ (f_data f)) ->
  write X cfg st by_ f = (st', e) -> ow st st'.
Proof.
  intros O. unfold write. destruct (serialize _ _ _ _ _) as [exts r]. intros H.
  destruct r; apply pair_equal_spec in H as [<- _]; [|ow].
  split; [exists [Sent by_ f a]|exists []; now rewrite app_nil_r]. split; [reflexivity|].
  constructor; [exact O|constructor].
Qed.
Lemma write_frame_ow st by_ fin op data expected st' e : 
  (op = CLOSE -> origin (p_in st) by_ data) -> write_frame X cfg st by_ fin op data expected = (st', e) -> ow st st'.
Proof.
  intros Sm. unfold write_frame. destruct (negb _); [|now apply write_ow]. intros H.
  apply pair_equal_spec in H as [<- _]. ow.
Qed.
Lemma write_close_frame_ow st by_ data st' e : origin (p_in st) by_ data ->
  write_close_frame X cfg st by_ data = (st', e) -> ow st st'.
Proof.
  intros O. unfold write_close_frame. destruct (is_open _).
  - destruct (write_frame _ _ _ _ _ _ _ _) as [st2 e2] eqn:W. intros H. apply pair_equal_spec in H as [<- _].
    apply write_frame_ow in W; [|now intros _]. apply (ow_trans _ (set_state Closing st)); [ow|exact W].
  - intros H. apply pair_equal_spec in H as [<- _]. ow.
Qed.
Lemma start_ping_ow st by_ data st' e : start_ping X cfg st by_ data = (st', e) -> ow st st'.
Proof. unfold start_ping. cbv zeta. intros H. apply write_frame_ow in H; [|discriminate]. eapply ow_trans; [|exact H]. ow. Qed.
Ltac prepared := let C := fresh in intros C; rewrite C in *;
  match goal with H : prepare_data _ = Ok _ |- _ => apply prepare_data_op in H as [?|?]; discriminate end.
Ltac written W := first [apply start_ping_ow in W|apply write_frame_ow in W; [|first [discriminate|prepared]]].

Lemma cancel_T_ow st : ow st (cancel_T st).
Proof. unfold cancel_T. destruct (_ && _); ow. Qed.
Lemma cancel_T_state st : p_state (cancel_T st) = p_state st.
Proof. unfold cancel_T. now destruct (_ && _). Qed.
Lemma fail_ow st code st' e : (is_open (p_state st) = true -> may_fail code) -> fail_connection X cfg st code = (st', e) -> ow st st'.
Proof.
  intros Mf. unfold fail_connection. intros H. eapply ow_trans; [apply cancel_T_ow|].
  assert (Mf' : is_open (p_state (cancel_T st)) = true -> may_fail code) by (rewrite cancel_T_state; exact Mf).
  clear Mf. rename Mf' into Mf. revert Mf H. generalize (cancel_T st). clear st. intros st Mf.
  assert (G : forall st2 e2,
    (if negb (code =? 1006)%Z && is_open (p_state st)
     then match serialize_close code [] with
          | Raise e => (st, Some e)
          | Ok data => write X cfg (set_state Closing st) ByFailure (mkframe true CLOSE data)
          end
     else (st, None)) = (st2, e2) -> ow st st2).
  { intros st2 e2. destruct (_ && _) eqn:Co; [|intros Q; apply pair_equal_spec in Q as [<- _]; apply ow_refl].
    destruct (serialize_close _ _) eqn:Sc; [|intros Q; apply pair_equal_spec in Q as [<- _]; apply ow_refl].
    apply Bool.andb_true_iff in Co as [Co Op]. specialize (Mf Op). apply Bool.negb_true_iff, Z.eqb_neq in Co.
    intros Q. apply write_ow in Q; [|intros _; exists code; destruct Mf as [?|Mf]; [contradiction|auto]]. apply (ow_trans _ (set_state Closing st)); [ow|exact Q]. }
  destruct (if _ && _ then _ else _) as [st2 e2] eqn:Q. intros H. eapply ow_trans; [exact (G _ _ eq_refl)|].
  destruct e2; apply pair_equal_spec in H as [<- _]; [apply ow_refl|].
  destruct (p_C st2) eqn:HC; ow.
Qed.
Lemma after_drain_ow st a st' r : after_drain X cfg st a = Some (st', r) -> ow st st'.
Proof.
  unfold after_drain. destruct a; try discriminate.
  - intros H. apply some_inj, pair_equal_spec in H as [<- _]. apply ow_refl.
  - destruct (p_lost st) as [l|]; [|discriminate].
    assert (G : (let '(st2, _) := fail_connection X cfg st 1006 in Some (st2, ensure_open st2)) = Some (st', r) -> ow st st').
    { destruct (fail_connection _ _ _ _) as [st2 e2] eqn:F. intros H.
      apply some_inj, pair_equal_spec in H as [<- _]. apply fail_ow in F; [exact F|intros _; now left]. }
    destruct l as [[]|]; destruct o; try discriminate; try exact G;
      intros H; apply some_inj, pair_equal_spec in H as [<- _]; apply ow_refl.
Qed.


Section Call.
Variable i : nat.
Lemma recv_loop_ow st : ow st (recv_loop st i).
Proof.
  unfold recv_loop. destruct (p_messages st).
  - destruct (T_exists _); ow.
  - change (p_put (set_messages l st)) with (p_put st). destruct (p_put st); [|ow].
    destruct (set_result _ _); ow.
Qed.
Lemma recv_resume_ow st w : ow st (recv_resume cfg st i w).
Proof.
  unfold recv_resume. destruct (fut_done _).
  - eapply ow_trans; [|apply recv_loop_ow]. ow.
  - destruct (c_legacy_recv cfg); [ow|]. destruct (ensure_open _); [|ow|ow].
    eapply ow_trans; [|apply recv_loop_ow]. ow.
Qed.
Definition raised st : Prop :=
  forall pc c, nth_error (p_users st) i = Some (pc, c) -> exists e, pc = UDone (RRaise e) /\ c = false.
Lemma raised_set st e : raised (raise_ i e st).
Proof.
  intros pc c. cbn [raise_ return_ set_user set_users p_users]. intros H.
  assert (L : (i < length (p_users st))%nat).
  { apply Nat.nle_gt. intros L. assert (Q : nth_error (replace i (UDone (RRaise e), false) (p_users st)) i = None)
      by (apply nth_error_None; rewrite length_replace; exact L). congruence. }
  rewrite nth_error_replace_eq in H by exact L. injection H as <- <-. eauto.
Qed.
(* what follows if the call raises an exception *)
Definition ex st' st : Prop := (raised st' -> Fails 1011) -> ow st st'.
Lemma ex_ow st st' : ow st st' -> ex st' st.
Proof. intros H _. exact H. Qed.
Lemma ex_trans st st1 st' : ow st st1 -> ex st' st1 -> ex st' st.
Proof. intros H G F. eapply ow_trans; [exact H|exact (G F)]. Qed.
Lemma end_fragments_ow st r : ow st (end_fragments st i r).
Proof. unfold end_fragments. destruct (p_frag st); [|ow]. destruct (set_result _ _); ow. Qed.
Lemma end_fragments_raised st e : raised (end_fragments st i (RRaise e)).
Proof. unfold end_fragments. destruct (p_frag st); [destruct (set_result _ _)|]; apply raised_set. Qed.
Lemma raise_fragments_ow st e : ex (raise_fragments X cfg st i e) st.
Proof.
  unfold ex, raise_fragments.
  destruct (fail_connection X cfg st 1011) as [st2 e2] eqn:F. intros H.
  assert (G : forall e', (raised (end_fragments st2 i (RRaise e')) -> Fails 1011) -> ow st (end_fragments st2 i (RRaise e'))).
  { intros e' Q. apply fail_ow in F; [|intros _; right; apply Q, end_fragments_raised].
    eapply ow_trans; [exact F|apply end_fragments_ow]. }
  destruct e; try (apply G; exact H). apply end_fragments_ow.
Qed.
Lemma send_item_ow st op rest d : ex (send_item X cfg st i op rest d) st.
Proof.
  unfold send_item. destruct (prepare_data d) as [[op' data]|e] eqn:Pd; [|apply raise_fragments_ow].
  destruct (negb _); [apply raise_fragments_ow|].
  destruct (write_frame _ _ _ _ _ _ _ _) as [st2 e] eqn:W. written W. destruct e.
  - apply (ex_trans _ _ _ W), raise_fragments_ow.
  - apply ex_ow. ow.
Qed.
Lemma send_last_ow st : ex (send_last X cfg st i) st.
Proof.
  unfold send_last.
  destruct (write_frame _ _ _ _ _ _ _ _) as [st2 e] eqn:W. written W. destruct e.
  - apply (ex_trans _ _ _ W), raise_fragments_ow.
  - apply ex_ow. ow.
Qed.
Lemma send_next_ow st op src : ex (send_next X cfg st i op src) st.
Proof.
  destruct src as [[|d items] [e|]|]; cbn [send_next];
    [apply raise_fragments_ow|apply send_last_ow|apply send_item_ow|apply send_item_ow|apply ex_ow; ow].
Qed.
Lemma send_first_ow st rest d : ex (send_first X cfg st i rest d) st.
Proof.
  unfold send_first. destruct (prepare_data d) as [[op data]|e] eqn:Pd; [|apply ex_ow; ow].
  destruct (write_frame _ _ _ _ _ _ _ _) as [st2 e] eqn:W. written W.
  match type of W with ow ?s _ => apply (ex_trans _ s); [now apply ow_same|] end. destruct e.
  - apply (ex_trans _ _ _ W), raise_fragments_ow.
  - apply ex_ow. ow.
Qed.
Lemma send_loop_ow st m : ex (send_loop X cfg st i m) st.
Proof.
  unfold send_loop. destruct (p_frag st); [apply ex_ow; ow|].
  destruct m as [d| |[|d items] [e|]| |]; try (apply ex_ow; ow; fail); try apply send_first_ow.
  destruct (prepare_data d) as [[op data]|e] eqn:Pd; [|apply ex_ow; ow].
  destruct (write_frame _ _ _ _ _ _ _ _) as [st2 e] eqn:W. written W. destruct e; apply ex_ow; ow.
Qed.
Lemma close_wait_T_ow st t0 : ow st (close_wait_T cfg st i t0).
Proof. unfold close_wait_T. destruct (T_exists st); ow. Qed.
Lemma close_timed_out_ow st t0 : ow st (close_timed_out X cfg st i t0).
Proof.
  unfold close_timed_out. destruct (fail_connection _ _ _ _) as [st2 e2] eqn:F. apply fail_ow in F; [|intros _; now left].
  eapply ow_trans; [exact F|apply close_wait_T_ow].
Qed.
Lemma close_start_ow st code reason : Call i code reason -> ow st (close_start X cfg st i code reason).
Proof.
  intros Ca. unfold close_start. destruct (serialize_close _ _) eqn:Sc; [|ow].
  assert (G : ow st
     match write_close_frame X cfg st (ByCall i) a with
     | (st2, Some (Some e)) => raise_ i (PyExn e) st2
     | (st2, Some None) => set_user i (UCloseWrite (deadline st2 (c_close_timeout cfg)) (p_now st2)) st2
     | (st2, None) => close_wait_T cfg st2 i (p_now st2)
     end).
  { destruct (write_close_frame _ _ _ _ _) as [st2 r] eqn:W. apply write_close_frame_ow in W; [|now exists code, reason].
    destruct r as [[e|]|]; [ow|ow|]. eapply ow_trans; [|apply close_wait_T_ow]. ow. }
  destruct (c_close_timeout cfg) as [[|q]|]; [apply close_timed_out_ow|exact G|exact G].
Qed.
(* the call is a call to send() *)
Definition sending (pc : upc) : Prop :=
  match pc with
  | UStart (CallSend _) | USendFrag _ _ | UFragDrain _ _ | UFragLast | UFragEnsure | UANext _ => True
  | _ => False
  end.
Lemma cancel_call_ow st pc : (sending pc -> raised (cancel_call X cfg st i pc) -> Fails 1011) -> ow st (cancel_call X cfg st i pc).
Proof.
  unfold cancel_call. intros Fr. destruct pc; try (ow; fail); try (apply raise_fragments_ow; exact (Fr Logic.I)).
  - destruct op; [apply raise_fragments_ow; exact (Fr Logic.I)|ow].
  - eapply ow_trans; [apply cancel_T_ow|ow].
Qed.

Ltac some_ow H := apply some_inj in H as <-.

Lemma start_call_ow st c a st' : (forall code reason, c = CallClose code reason -> Call i code reason) ->
  ((exists m, c = CallSend m) -> raised st' -> Fails 1011) -> start_call X cfg st i c a = Some st' -> ow st st'.
Proof.
  intros Sm Fr. unfold start_call. intros H. destruct c; destruct a; try discriminate; try some_ow H.
  - destruct (p_pop st); [ow|apply recv_loop_ow].
  - destruct (ensure_open st); [apply send_loop_ow; apply Fr; eauto|ow|ow].
  - apply close_start_ow. now apply Sm.
  - destruct (ensure_open st); [|some_ow H; ow|some_ow H; ow]. destruct data as [d|].
    + destruct (prepare_ctrl d); [|some_ow H; ow].
      destruct (has_ping _ _); [some_ow H; ow|].
      destruct (start_ping _ _ _ _ _) as [st2 e] eqn:W. written W. destruct e; some_ow H; ow.
    + destruct (random_ok _ _); [|discriminate].
      destruct (start_ping _ _ _ _ _) as [st2 e] eqn:W. written W. destruct e; some_ow H; ow.
  - destruct (ensure_open st); [|ow|ow]. destruct (prepare_ctrl data); [|ow].
    destruct (write_frame _ _ _ _ _ _ _ _) as [st2 e] eqn:W. written W. destruct e; ow.
  - ow.
Qed.

Lemma step_call_ow st pc a st' : (forall code reason, pc = UStart (CallClose code reason) -> Call i code reason) ->
  (sending pc -> raised st' -> Fails 1011) -> step_call X cfg st i pc a = Some st' -> ow st st'.
Proof.
  intros Sm Fr.
  assert (D : forall (k1 : conn E -> conn E) (k2 : conn E -> pexn -> conn E) (k3 : conn E -> conn E),
    (forall s, k1 s = st' -> ow s (k1 s)) -> (forall s e, k2 s e = st' -> ow s (k2 s e)) -> (forall s, ow s (k3 s)) ->
    match after_drain X cfg st a with
    | Some (s2, EOk) => Some (k1 s2)
    | Some (s2, ERaise e) => Some (k2 s2 e)
    | Some (s2, EWait) => Some (k3 s2)
    | None => None
    end = Some st' -> ow st st').
  { intros k1 k2 k3 H1 H2 H3 H. destruct (after_drain _ _ _ _) as [[s2 r]|] eqn:Q; [|discriminate].
    apply after_drain_ow in Q.
    destruct r; some_ow H; (eapply ow_trans; [exact Q|first [now apply H1|now apply H2|apply H3]]). }
  unfold step_call. intros H. destruct pc.
  - eapply start_call_ow; [| |exact H]; [intros code reason ->; now apply Sm|]. intros [m ->]. exact (Fr Logic.I).
  - destruct a; try discriminate. destruct (_ || _); [|discriminate]. some_ow H. apply recv_resume_ow.
  - destruct a; try discriminate. destruct (fut_done _); [|discriminate]. some_ow H. apply send_loop_ow. exact (Fr Logic.I).
  - destruct a; try discriminate. destruct (ensure_open_end st); [|discriminate]. some_ow H. ow.
  - eapply (D (fun s => return_ i RNone s) (fun s e => raise_ i e s) (fun s => set_user i UEnsure s));
      [ow|ow|ow|exact H].
  - eapply (D (fun s => send_next X cfg s i op rest) (fun s e => raise_fragments X cfg s i e)
             (fun s => set_user i UFragEnsure s));
      [intros s1 Q; apply send_next_ow; rewrite Q; exact (Fr Logic.I)|intros s1 e1 Q; apply raise_fragments_ow; rewrite Q; exact (Fr Logic.I)|ow|exact H].
  - eapply (D (fun s => end_fragments s i RNone) (fun s e => raise_fragments X cfg s i e)
             (fun s => set_user i UFragEnsure s));
      [intros; apply end_fragments_ow|intros s1 e1 Q; apply raise_fragments_ow; rewrite Q; exact (Fr Logic.I)|ow|exact H].
  - destruct a; try discriminate. destruct (ensure_open_end st); [|discriminate]. some_ow H.
    apply raise_fragments_ow. exact (Fr Logic.I).
  - destruct op; destruct a as [| | | | |[]]; try discriminate; some_ow H;
      first [apply send_item_ow; exact (Fr Logic.I)|apply send_last_ow; exact (Fr Logic.I)|apply raise_fragments_ow; exact (Fr Logic.I)
            |apply send_first_ow; exact (Fr Logic.I)|ow].
  - eapply (D (fun s => match find_ping s data with
                        | Some w => return_ i (RPing w) s
                        | None => raise_ i (PyExn KeyError) s end) (fun s e => raise_ i e s)
              (fun s => set_user i UEnsure s)); [intros; destruct (find_ping s data); ow|ow|ow|exact H].
  - assert (G : match after_drain X cfg st a with
                | Some (st, EOk) => Some (close_wait_T cfg st i t0)
                | Some (st, ERaise e) => Some (raise_ i e st)
                | Some (st, EWait) => Some (set_user i (UCloseEnsure d t0) st)
                | None => None
                end = Some st' -> ow st st').
    { apply (D (fun s => close_wait_T cfg s i t0) (fun s e => raise_ i e s)
             (fun s => set_user i (UCloseEnsure d t0) s)); [intros; apply close_wait_T_ow|ow|ow]. }
    destruct a; try (now apply G). destruct (expired st d); [|discriminate]. some_ow H.
    apply close_timed_out_ow.
  - destruct a; try discriminate.
    + destruct (ensure_open_end st); [|discriminate]. some_ow H. ow.
    + destruct (expired st d); [|discriminate]. some_ow H. apply close_timed_out_ow.
  - destruct a; try discriminate.
    + destruct (p_T st) as [| | | | | | |[e|]] eqn:HT; try discriminate; some_ow H; ow.
    + destruct (expired st d); [|discriminate]. some_ow H.
      eapply ow_trans; [apply cancel_T_ow|ow].
  - destruct a; try discriminate. destruct (T_done st); [|discriminate]. some_ow H. ow.
  - destruct a; try discriminate.
    destruct (p_C st) as [| | | | | | |[e|]]; try discriminate; some_ow H; ow.
  - destruct a; try discriminate. destruct (is_lost st); [|discriminate]. some_ow H. ow.
  - discriminate.
Qed.
Lemma step_user_ow st a st' : (forall code reason c, nth_error (p_users st) i = Some (UStart (CallClose code reason), c) -> Call i code reason) ->
  (forall pc c, nth_error (p_users st) i = Some (pc, c) -> sending pc -> raised st' -> Fails 1011) ->
  step_user X cfg st i a = Some st' -> ow st st'.
Proof.
  intros Sm Fr. unfold step_user. destruct (nth_error _ _) as [[pc c]|] eqn:Hu; [|discriminate].
  assert (G : step_call X cfg st i pc a = Some st' -> ow st st') by (apply step_call_ow; [intros code reason ->; exact (Sm code reason c eq_refl)|exact (Fr pc c eq_refl)]).
  assert (G' : match a with Go => Some (cancel_call X cfg st i pc) | _ => None end = Some st' ->
               ow st st').
  { destruct a; try discriminate. intros H'. apply some_inj in H' as <-. apply cancel_call_ow. exact (Fr pc c eq_refl). }
  destruct c; destruct pc; try discriminate; auto.
Qed.

End Call.
(* either the connection may be failed with any code, or the exceptions in transfer_data are known *)
Definition free : Prop := forall e, may_fail (fail_code e).
Definition closed_state st : Prop := is_open (p_state st) = false.
Definition fine (e : exn) : Prop := may_fail (fail_code (PyExn e)).
Definition allowed (c : rctx) (f : frame) : Prop :=
  (f_opcode f = CLOSE -> forall e, parse_close (f_data f) = Raise e -> fine e) /\
  (f_opcode f = PING -> forall st w st' e, write X cfg st w (mkframe true PONG (f_data f)) = (st', Some e) -> fine e) /\
  (is_data_b f = true -> forall e, read_message cfg c f = RExn e -> fine e).
Definition allowed_T st : Prop := forall c, p_T st = TRead c ->
  (forall e r exts, run (legacy_read X (negb (c_client cfg)) (read_limit cfg c)) (p_reader st) (p_exts st) = OFail e r exts -> fine e) /\
  (forall f r exts, run (legacy_read X (negb (c_client cfg)) (read_limit cfg c)) (p_reader st) (p_exts st) = ODone f r exts -> allowed c f).
Definition late (t : tpc) : Prop := match t with TPongEnsure _ | TCloseDrain _ | TCloseEnsure _ => True | _ => False end.

Lemma may_1006 : may_fail 1006. Proof. now left. Qed.
Lemma T_raise_ow st e : free \/ closed_state st \/ may_fail (fail_code e) \/ e = CancelledError -> ow st (T_raise X cfg st e).
Proof.
  intros Ok. unfold T_raise.
  assert (G : e <> CancelledError -> ow st (let '(st2, e') := fail_connection X cfg st (fail_code e) in set_T (TDone e') st2)).
  { intros Nc. destruct (fail_connection _ _ _ _) as [st2 e2] eqn:F. apply fail_ow in F;
      [|intros Q; destruct Ok as [Ok|[Ok|[Ok|Ok]]]; [apply Ok|unfold closed_state in Ok; congruence|exact Ok|contradiction]].
    eapply ow_trans; [exact F|]. ow. }
  destruct e; try (apply G; discriminate). ow.
Qed.
Lemma after_close_ow st c : free \/ closed_state st -> ow st (after_close X cfg st c).
Proof. intros Ok. unfold after_close. destruct c; try (apply T_raise_ow; tauto). ow. Qed.
Definition popping st : Prop := forall w, p_pop st = Some w -> pending (p_pops st) w.
Lemma put_message_ow st m : free \/ popping st -> ow st (put_message X cfg st m).
Proof.
  intros Ok. unfold put_message. destruct (room cfg st); [|ow].
  change (p_pop (set_messages _ st)) with (p_pop st). change (p_pops (set_messages _ st)) with (p_pops st).
  destruct (p_pop st) as [w|] eqn:Pp; [|ow]. destruct (set_result _ _) eqn:Sr; [ow|].
  destruct Ok as [Ok|Ok]; [|rewrite (set_result_pending _ _ (Ok w Pp)) in Sr; discriminate].
  eapply ow_trans; [|apply T_raise_ow; now left]. ow.
Qed.
Lemma ensure_open_fine st e : ensure_open st = ERaise e -> closed_state st.
Proof.
  unfold ensure_open, closed_state. destruct (p_state st); try reflexivity. destruct (T_done st); discriminate.
Qed.
Definition lost_closed st : Prop := p_lost st <> None -> closed_state st.
Lemma after_drain_fine st a st' r : lost_closed st -> after_drain X cfg st a = Some (st', r) ->
  p_state st' = p_state st /\ forall e, r = ERaise e -> closed_state st'.
Proof.
  intros Lc. unfold after_drain. destruct a; try discriminate.
  - intros H. apply some_inj, pair_equal_spec in H as [<- <-]. split; [reflexivity|discriminate].
  - destruct (p_lost st) as [l|] eqn:Pl; [|discriminate].
    assert (Cl : closed_state st) by (apply Lc; rewrite Pl; discriminate).
    assert (G : (let '(st2, _) := fail_connection X cfg st 1006 in Some (st2, ensure_open st2)) = Some (st', r) ->
      p_state st' = p_state st /\ forall e, r = ERaise e -> closed_state st').
    { destruct (fail_connection _ _ _ _) as [st2 e2] eqn:F. intros H.
      apply some_inj, pair_equal_spec in H as [<- <-]. split; [|intros e; apply ensure_open_fine].
      revert F. unfold fail_connection. assert (C : p_state (cancel_T st) = p_state st) by apply cancel_T_state.
      cbn [negb Z.eqb andb Pos.eqb]. intros F.
      destruct (p_C (cancel_T st)); apply pair_equal_spec in F as [<- _]; exact C. }
    destruct l as [[]|]; destruct o; try discriminate; try exact G;
      intros H; apply some_inj, pair_equal_spec in H as [<- <-]; (split; [reflexivity|]);
      intros e _; exact Cl.
Qed.
Lemma on_frame_ow st1 c f : free \/ allowed c f /\ popping st1 -> In f (p_in st1) -> ow st1 (on_frame X cfg st1 c f).
Proof.
  intros Ok In_f. unfold on_frame.
  assert (D : is_data_b f = true -> ow st1 match read_message cfg c f with
         | RMsg m => put_message X cfg st1 m
         | RNext c => set_T (TRead c) st1
         | RExn e => T_raise X cfg st1 (PyExn e)
         end).
  { intros Dt. destruct (read_message cfg c f) eqn:Rm; [apply put_message_ow; tauto|ow|apply T_raise_ow].
    destruct Ok as [Ok|[(_ & _ & Ok) _]]; [now left|right; right; left; now apply Ok]. }
  unfold is_data_b in D.
  destruct (f_opcode f) eqn:Op; try (exact (D eq_refl)).
  - destruct (parse_close _) as [k|] eqn:Pc;
      [|apply T_raise_ow; destruct Ok as [Ok|[(Ok & _) _]]; [now left|right; right; left; now apply Ok]].
    apply (ow_trans _ (set_close (Some k) st1)); [ow|].
    destruct (write_close_frame _ _ _ _ _) as [st2 r] eqn:Wc.
    assert (Cl : closed_state st2).
    { revert Wc. unfold write_close_frame. cbn [set_close p_state]. destruct (is_open (p_state st1)) eqn:Op1.
      - destruct (write_frame _ _ _ _ _ _ _ _) as [st3 e3] eqn:W. intros H. apply pair_equal_spec in H as [<- _].
        apply write_frame_shape in W as (? & ? & ->). reflexivity.
      - intros H. apply pair_equal_spec in H as [<- _]. exact Op1. }
    apply write_close_frame_ow in Wc; [|exists f; repeat split; auto; now exists k].
    eapply ow_trans; [exact Wc|].
    destruct r as [[?|]|]; [apply T_raise_ow; auto|ow|apply after_close_ow; auto].
  - destruct (ensure_open _) eqn:Eo; [|apply T_raise_ow; right; left; now apply ensure_open_fine in Eo|ow].
    destruct (write_frame _ _ _ _ _ _ _ _) as [st2 [e|]] eqn:Wf.
    + pose proof Wf as Wf'. apply write_frame_ow in Wf'; [|discriminate]. eapply ow_trans; [exact Wf'|]. apply T_raise_ow.
      destruct Ok as [Ok|[(_ & Ok & _) _]]; [now left|right; right; left]. unfold write_frame in Wf.
      unfold ensure_open in Eo. destruct (p_state st1) eqn:Ps; try discriminate. cbn [pstate_eqb negb] in Wf.
      exact (Ok Op _ _ _ _ Wf).
    + apply write_frame_ow in Wf; [|discriminate]. eapply ow_trans; [exact Wf|]. ow.
  - destruct (receive_pong_shape st1 (f_data f)) as (? & ? & ->). ow.
Qed.
(* nothing unexpected happens in transfer_data *)
Definition expected st : Prop :=
  allowed_T st /\ (late (p_T st) -> closed_state st) /\ popping st /\ lost_closed st.
Lemma step_T_ow st a st' : free \/ expected st ->
  step_T X cfg st a = Some st' -> ow st st'.
Proof.
  intros Ok H. unfold step_T in H.
  assert (Lt : late (p_T st) -> free \/ closed_state st) by (unfold expected in Ok; tauto).
  assert (Pp : free \/ popping st) by (unfold expected in Ok; tauto).
  assert (Lc : free \/ lost_closed st) by (unfold expected in Ok; tauto).
  destruct (p_T st) as [|c|c|c|c|c|m w|e] eqn:HT; try discriminate; (destruct (p_Tcancel st);
    [destruct a; try discriminate; apply some_inj in H as <-; eapply ow_trans; [|apply T_raise_ow; tauto]; ow|]).
  - destruct a; try discriminate. unfold read_frame in H.
    assert (G : match run (legacy_read X (negb (c_client cfg)) (read_limit cfg c)) (p_reader st) (p_exts st) with
        | OSusp _ _ _ => None
        | OFail e r exts => Some (T_raise X cfg (set_reader r (set_exts exts st)) (PyExn e))
        | ODone f r exts =>
          let st := set_in (p_in st ++ [f]) (set_reader r (set_exts exts st)) in
          Some (on_frame X cfg st c f)
        end = Some st' -> ow st st').
    { clear H. destruct (run _ _ _) as [? ? ?|f r ex|e r ex] eqn:Run; cbv zeta; try discriminate; intros H;
        apply some_inj in H as <-.
      - set (st1 := set_in _ _).
        apply (ow_trans _ st1); [|apply on_frame_ow; [|apply in_or_app; right; now left]].
        + split; [exists []; rewrite app_nil_r; split; [reflexivity|constructor]|now exists [f]].
        + destruct Ok as [Ok|(Ok & _ & Pop & _)]; [now left|right]. split; [exact (proj2 (Ok c HT) f r ex Run)|exact Pop].
      - apply (ow_trans _ (set_reader r (set_exts ex st))); [now apply ow_same|apply T_raise_ow].
        destruct Ok as [Ok|[Ok _]]; [now left|right; right; left]. exact (proj1 (Ok c HT) e r ex Run). }
    destruct (p_lost st) as [[o|]|] eqn:L; [|now apply G|now apply G].
    apply some_inj in H as <-. apply T_raise_ow. destruct Lc as [Lc|Lc]; [now left|right; left]. apply Lc. rewrite L. discriminate.
  - destruct (after_drain X cfg st a) as [[st2 r]|] eqn:D; [|discriminate].
    assert (Df : forall e, r = ERaise e -> free \/ closed_state st2).
    { intros e Q. destruct Lc as [Lc|Lc]; [now left|right]. exact (proj2 (after_drain_fine _ _ _ _ Lc D) e Q). }
    apply after_drain_ow in D.
    eapply ow_trans; [exact D|].
    destruct r; apply some_inj in H as <-; [ow|apply T_raise_ow; destruct (Df _ eq_refl); tauto|ow].
  - destruct a; try discriminate. destruct (ensure_open_end st); [|discriminate].
    apply some_inj in H as <-. apply T_raise_ow. destruct (Lt Logic.I); auto.
  - destruct (after_drain X cfg st a) as [[st2 r]|] eqn:D; [|discriminate].
    assert (Lt' : free \/ closed_state st2).
    { destruct Lc as [Lc|Lc]; [now left|]. destruct (after_drain_fine _ _ _ _ Lc D) as [Ds _].
      unfold closed_state. rewrite Ds. exact (Lt Logic.I). }
    apply after_drain_ow in D. eapply ow_trans; [exact D|].
    destruct r; apply some_inj in H as <-; [now apply after_close_ow|
      destruct (is_closed_exn e); [now apply after_close_ow|apply T_raise_ow; tauto]|ow].
  - destruct a; try discriminate. destruct (ensure_open_end st); [|discriminate].
    apply some_inj in H as <-. specialize (Lt Logic.I). destruct (is_closed_exn p); [now apply after_close_ow|apply T_raise_ow; tauto].
  - destruct a; try discriminate. destruct (fut_done _); [|discriminate]. apply some_inj in H as <-.
    eapply ow_trans; [|apply put_message_ow]; [ow|]. exact Pp.
Qed.
Lemma step_K_ow st a st' : (a = Timeout -> Fails 1011) -> step_K X cfg st a = Some st' -> ow st st'.
Proof.
  intros Fr H. unfold step_K in H.
  destruct (p_K st); try discriminate; (destruct (p_Kcancel st);
    [destruct a; try discriminate; apply some_inj in H as <-; ow|]).
  - destruct a; try discriminate. destruct (c_ping_interval cfg); apply some_inj in H as <-; ow.
  - destruct a; try discriminate. destruct (_ <=? _); [|discriminate].
    destruct (ensure_open st); [|apply some_inj in H as <-; ow|apply some_inj in H as <-; ow].
    destruct (random_ok _ _); [|discriminate].
    destruct (start_ping _ _ _ _ _) as [st2 e2] eqn:Q. apply start_ping_ow in Q.
    destruct e2; apply some_inj in H as <-; (eapply ow_trans; [exact Q|]; ow).
  - destruct (after_drain X cfg st a) as [[st2 r]|] eqn:D; [|discriminate]. apply after_drain_ow in D.
    eapply ow_trans; [exact D|]. destruct r; apply some_inj in H as <-; try (ow; fail).
    unfold after_ping. destruct (find_ping _ _); [|ow].
    destruct (c_ping_timeout cfg); [|ow]. try destruct (_ =? _); ow.
  - destruct a; try discriminate. destruct (ensure_open_end st); [|discriminate].
    apply some_inj in H as <-. ow.
  - destruct a; try discriminate.
    + destruct (get_fut _ _); try discriminate; apply some_inj in H as <-; ow.
    + destruct (_ <=? _); [|discriminate].
      destruct (fail_connection _ _ _ _) as [st2 e2] eqn:F. apply fail_ow in F; [|intros _; right; now apply Fr]. apply some_inj in H as <-.
      eapply ow_trans; [exact F|]. ow.
Qed.

Lemma step_ow st l st' :
  (forall i code reason c, nth_error (p_users st) i = Some (UStart (CallClose code reason), c) -> Call i code reason) ->
  (forall code, l = LFail code -> Fails code) ->
  (l = LK Timeout -> Fails 1011) ->
  (forall i a pc c, l = LUser i a -> nth_error (p_users st) i = Some (pc, c) -> sending pc -> raised i st' -> Fails 1011) ->
  free \/ expected st ->
  step X cfg st l = Some st' -> ow st st'.
Proof.
  intros Sm Lf Fk Fu Ok H. destruct l; cbn [step] in H.
  - destruct (p_state st); try discriminate. destruct (p_C st); try discriminate. apply some_inj in H as <-. ow.
  - destruct (fail_connection _ _ _ _) as [st2 e2] eqn:F. apply some_inj in H as <-. cbn [fst].
    refine (fail_ow _ _ _ _ _ F). intros _. right. now apply Lf.
  - destruct (r_eof _); [discriminate|]. apply some_inj in H as <-. ow.
  - destruct (r_eof _); [discriminate|]. apply some_inj in H as <-. ow.
  - assert (H' : connection_lost st o closing = st') by (destruct (p_state st); try discriminate; now apply some_inj in H).
    destruct (connection_lost_shape st o closing) as (? & ? & ? & ? & ? & Sh). rewrite Sh in H'. subst st'. ow.
  - apply some_inj in H as <-. ow.
  - apply some_inj in H as <-. ow.
  - apply some_inj in H as <-. ow.
  - destruct (nth_error (p_users st) i) as [[pc0 c0]|] eqn:Hj; [|discriminate].
    assert (H' : set_users (replace i (pc0, true) (p_users st)) st = st')
      by (destruct pc0; try discriminate; now apply some_inj in H).
    subst st'. ow.
  - exact (step_T_ow _ _ _ Ok H).
  - refine (step_K_ow _ _ _ _ H). intros ->. now apply Fk.
  - apply step_C_shape in H as (? & ? & ? & ? & ? & ->). ow.
  - exact (step_user_ow i _ _ _ (Sm i) (fun pc c => Fu i _ pc c eq_refl) H).
Qed.
End Origin.

(* The program counter of a call which hasn't started shows its arguments. *)
Section Started.
Context {E : Type} (X : ext_ops E) (cfg : config).
Implicit Type st : conn E.
Definition left_start (i : nat) st st' : Prop :=
  exists pc, p_users st' = replace i (pc, false) (p_users st) /\ forall c, pc <> UStart c.
Lemma left_set i pc st st1 : p_users st1 = p_users st -> (forall c, pc <> UStart c) -> left_start i st (set_user i pc st1).
Proof. intros U N. exists pc. split; [cbn [set_user p_users set_users]; now rewrite U|exact N]. Qed.
Lemma recv_loop_left i st st1 : p_users st1 = p_users st -> left_start i st (recv_loop st1 i).
Proof.
  intros U. unfold recv_loop. destruct (p_messages st1).
  - destruct (T_exists _); apply left_set; first [exact U|discriminate].
  - change (p_put (set_messages l st1)) with (p_put st1). destruct (p_put st1); [|apply left_set; first [exact U|discriminate]].
    destruct (set_result _ _); apply left_set; first [exact U|discriminate].
Qed.
Lemma step_user_left st i a st' : step_user X cfg st i a = Some st' -> left_start i st st'.
Proof.
  intros H. destruct (step_user_sameq X cfg st i a st' H) as [((pc & U & N) & _)|(pc & c & Hi & Hpc)].
  - exists pc. split; [exact U|]. intros c ->. exact N.
  - unfold step_user in H. rewrite Hi in H.
    assert (Q : forall e, left_start i st (raise_ i e st)) by (intros e; apply left_set; [reflexivity|discriminate]).
    destruct Hpc as [-> |[w ->]]; destruct c.
    + destruct a; try discriminate. apply some_inj in H as <-. apply Q.
    + cbn [step_call start_call] in H. destruct a; try discriminate. apply some_inj in H as <-.
      destruct (p_pop st); [apply Q|now apply recv_loop_left].
    + destruct a; try discriminate. apply some_inj in H as <-. apply left_set; [reflexivity|discriminate].
    + cbn [step_call] in H. destruct a; try discriminate. destruct (_ || _); [|discriminate]. apply some_inj in H as <-.
      unfold recv_resume. destruct (fut_done _); [now apply recv_loop_left|].
      destruct (c_legacy_recv cfg); [apply left_set; [reflexivity|discriminate]|].
      destruct (ensure_open _); [now apply recv_loop_left| |]; apply left_set; first [reflexivity|discriminate].
Qed.

Definition Started (ls : list label) st : Prop :=
  forall i c b, nth_error (p_users st) i = Some (UStart c, b) -> nth_error (calls ls) i = Some c.
Lemma Started_step ls st l st' : Waiters st -> length (p_users st) = length (calls ls) ->
  Started ls st -> step X cfg st l = Some st' -> Started (ls ++ [l]) st'.
Proof.
  intros W Ln S H i c b Hi.
  assert (More : nth_error (calls ls) i = Some c -> nth_error (calls (ls ++ [l])) i = Some c).
  { intros Q. unfold calls. rewrite flat_map_app. fold (calls ls). rewrite nth_error_app1; [exact Q|].
    apply nth_error_Some. now rewrite Q. }
  assert (Other : (forall a, l <> LUser i a) -> (i < length (p_users st))%nat -> nth_error (calls ls) i = Some c).
  { intros Nl Lt. destruct (nth_error (p_users st) i) as [[pc b0]|] eqn:Q; [|apply nth_error_None in Q; lia].
    destruct (step_other_user X cfg st l st' i pc b0 W Nl H Q) as (b1 & Q1 & _).
    rewrite Hi in Q1. injection Q1 as <- <-. exact (S i c b0 Q). }
  assert (U : (exists j a, l = LUser j a) \/ forall j a, l <> LUser j a) by (destruct l; eauto; right; discriminate).
  destruct U as [(j & a & ->)|Nu].
  - cbn [step] in H. destruct (step_user_left st j a st' H) as (pc & U & N).
    rewrite U in Hi. destruct (Nat.eq_dec i j) as [->|Ne].
    + exfalso. assert (Lt : (j < length (p_users st))%nat).
      { apply nth_error_Some. intros Q. unfold step_user in H. rewrite Q in H. discriminate. }
      rewrite nth_error_replace_eq in Hi by exact Lt. injection Hi as -> _. exact (N c eq_refl).
    + rewrite nth_error_replace_neq in Hi by congruence. exact (More (S i c b Hi)).
  - destruct (step_length X cfg st l st' W H) as [Eq|(c' & -> & Eq)].
    + apply More, Other; [intros a; apply Nu|]. rewrite <- Eq. apply nth_error_Some. now rewrite Hi.
    + destruct (Nat.lt_ge_cases i (length (p_users st))) as [Lt|Ge]; [apply More, Other; [intros a; apply Nu|exact Lt]|].
      rewrite Eq, nth_error_app2 in Hi by exact Ge.
      unfold calls. rewrite flat_map_app. fold (calls ls). rewrite nth_error_app2 by lia. rewrite <- Ln.
      cbn [flat_map app]. destruct (i - length (p_users st))%nat as [|n]; [|destruct n; discriminate].
      cbn [nth_error] in *. injection Hi as ->. reflexivity.
Qed.
Lemma Started_exec exts ls st : exec X cfg (initial exts) ls = Some st -> Started ls st.
Proof.
  revert st. induction ls as [|l ls IH] using rev_ind; intros st H.
  - cbn [exec] in H. apply some_inj in H as <-. intros i c b Q. destruct i; discriminate.
  - rewrite exec_app in H. destruct (exec X cfg (initial exts) ls) as [st1|] eqn:H1; [|discriminate].
    cbn [exec] in H. destruct (step X cfg st1 l) as [st2|] eqn:S1; [|discriminate]. apply some_inj in H as <-.
    destruct (Recv_exec X cfg exts ls st1 H1) as [_ (Wt & _)].
    destruct (Authors_exec X cfg exts ls st1 H1) as (Ln & _). eapply Started_step; eauto.
Qed.

Definition called (ls : list label) (i : nat) (code : Z) (reason : str) : Prop :=
  nth_error (calls ls) i = Some (CallClose code reason).
Definition fails_with (ls : list label) (code : Z) : Prop :=
  code = 1002%Z \/ code = 1007%Z \/ code = 1009%Z \/ code = 1011%Z \/ In (LFail code) ls.
(* the close frames that a step writes *)
Lemma origin_step exts ls l st st' : exec X cfg (initial exts) ls = Some st -> step X cfg st l = Some st' ->
  ow (called ls) (fails_with (ls ++ [l])) st st'.
Proof.
  intros H S. revert S. apply step_ow.
  - intros i code reason c Q. exact (Started_exec exts ls st H i _ c Q).
  - intros code ->. right; right; right; right. apply in_or_app. right. now left.
  - unfold fails_with. tauto.
  - unfold fails_with. tauto.
  - left. intros e. unfold may_fail, fails_with. destruct e as [[]| | |[]| |]; cbn [fail_code]; tauto.
Qed.
Lemma origin_more ls l inp w data : origin (called ls) (fails_with ls) inp w data ->
  origin (called (ls ++ [l])) (fails_with (ls ++ [l])) inp w data.
Proof.
  unfold origin. destruct w; auto.
  - intros (code & F & R). exists code. split; [|exact R]. unfold fails_with in *. rewrite in_app_iff. tauto.
  - intros (code & reason & C & R). exists code, reason. split; [|exact R].
    unfold called, calls in *. rewrite flat_map_app, nth_error_app1; [exact C|]. apply nth_error_Some. congruence.
Qed.
Lemma origin_exec exts ls st : exec X cfg (initial exts) ls = Some st ->
  Forall (Has (called ls) (fails_with ls) (p_in st)) (p_out st).
Proof.
  revert st. induction ls as [|l ls IH] using rev_ind; intros st H.
  - cbn [exec] in H. apply some_inj in H as <-. constructor.
  - rewrite exec_app in H. destruct (exec X cfg (initial exts) ls) as [st1|] eqn:H1; [|discriminate].
    cbn [exec] in H. destruct (step X cfg st1 l) as [st2|] eqn:S1; [|discriminate]. apply some_inj in H as <-.
    specialize (IH st1 eq_refl). destruct (origin_step exts ls l st1 st2 H1 S1) as [(new & -> & F) (more & I)].
    apply Forall_app. split.
    + rewrite I. revert IH. apply Forall_impl. intros x Q. apply Has_more. intros C. apply origin_more, Q, C.
    + revert F. apply Forall_impl. intros x Q C. specialize (Q C).
      revert Q. unfold origin. destruct (o_by x); auto.
      intros (code & reason & Cl & R). exists code, reason. split; [|exact R].
      unfold called, calls in *. rewrite flat_map_app, nth_error_app1; [exact Cl|]. apply nth_error_Some. congruence.
Qed.
End Started.
