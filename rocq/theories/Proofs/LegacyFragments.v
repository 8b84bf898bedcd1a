(* Messages sent by concurrent calls to send(). *)
From Verif Require Import Base.Prelude Base.PreludeFacts Model.Streams Model.Frames
  Model.LegacyFraming Model.LegacyProtocol Spec.Messages Spec.Asyncio
  Proofs.LegacyPrims Proofs.LegacyFields Proofs.LegacyShapes Proofs.LegacyUsers Proofs.LegacyClose
  Proofs.LegacyQueue.
Local Open Scope N_scope.

Section Fragments.
Context {E : Type} (X : ext_ops E) (cfg : config).
Implicit Type st : conn E.

Definition at_point (i : nat) (pc : upc) (current : list sent) : Prop :=
  match pc with
  | UFragDrain _ _ | UANext (Some _) => begun (ByCall i) current
  | UFragLast => current = []
  | _ => True
  end.
Definition live st : Prop := p_state st = Connecting \/ p_state st = Open.
Definition Frag st (current : list sent) : Prop :=
  match p_frag st with
  | None => current = [] /\ forall j pc c, nth_error (p_users st) j = Some (pc, c) -> ~ fragmenting pc
  | Some w =>
      p_state st = Open /\ pending (p_frags st) w /\
      exists i pc, nth_error (p_users st) i = Some (pc, false) /\ fragmenting pc /\ at_point i pc current /\
        forall j pc' c, nth_error (p_users st) j = Some (pc', c) -> fragmenting pc' -> j = i
  end.
Definition Sane st : Prop :=
  exists done current,
    datas (p_out st) = concat done ++ current /\ Forall whole done /\
    (current = [] \/ exists w, begun w current) /\ (live st -> Frag st current).

(** Steps that don't write data frames *)
Definition gr st st' : Prop :=
  p_users st' = p_users st /\ p_frag st' = p_frag st /\ p_frags st' = p_frags st /\
  datas (p_out st') = datas (p_out st) /\ (live st' -> p_state st' = p_state st).
Lemma gr_refl st : gr st st. Proof. repeat split. Qed.
Lemma gr_trans st st1 st2 : gr st st1 -> gr st1 st2 -> gr st st2.
Proof.
  intros (A1 & A2 & A3 & A4 & A5) (B1 & B2 & B3 & B4 & B5).
  split; [congruence|]. split; [congruence|]. split; [congruence|]. split; [congruence|].
  intros L. specialize (B5 L). rewrite B5. apply A5. unfold live in *. now rewrite B5 in L.
Qed.
Lemma gr_live st st' : gr st st' -> live st' -> live st.
Proof. intros (_ & _ & _ & _ & A) L. specialize (A L). unfold live in *. now rewrite A in L. Qed.
Lemma Frag_gr st st' current :
  p_users st' = p_users st -> p_frag st' = p_frag st -> p_frags st' = p_frags st ->
  p_state st' = p_state st -> Frag st current -> Frag st' current.
Proof. unfold Frag. now intros -> -> -> ->. Qed.
Lemma Sane_gr st st' : gr st st' -> Sane st -> Sane st'.
Proof.
  intros G (done & current & S1 & S2 & S3 & S4). pose proof (gr_live _ _ G) as L.
  destruct G as (A1 & A2 & A3 & A4 & A5).
  exists done, current. rewrite A4. split; [exact S1|]. split; [exact S2|]. split; [exact S3|].
  intros L'. apply (Frag_gr st); auto.
Qed.

Lemma datas_snoc l x : is_data_b (o_frame x) = false -> datas (l ++ [x]) = datas l.
Proof. intros H. unfold datas. rewrite filter_app. cbn [filter]. rewrite H. apply app_nil_r. Qed.
Lemma datas_snoc_data l x : is_data_b (o_frame x) = true -> datas (l ++ [x]) = datas l ++ [x].
Proof. intros H. unfold datas. rewrite filter_app. cbn [filter]. now rewrite H. Qed.

Lemma write_gr st by_ f st' e : is_data_b f = false -> write X cfg st by_ f = (st', e) -> gr st st'.
Proof.
  intros Hf. unfold write. destruct (serialize _ _ _ _ _) as [exts r]. intros H.
  destruct r; apply pair_equal_spec in H as [<- _]; [|repeat split].
  split; [reflexivity|]. split; [reflexivity|]. split; [reflexivity|]. split; [|reflexivity].
  cbn [p_out set_out set_exts]. now apply datas_snoc.
Qed.
Lemma write_frame_gr st by_ fin op data expected st' e :
  is_data_b (mkframe fin op data) = false ->
  write_frame X cfg st by_ fin op data expected = (st', e) -> gr st st'.
Proof.
  intros Hf. unfold write_frame. destruct (negb _).
  - intros H. apply pair_equal_spec in H as [<- _]. apply gr_refl.
  - intros H. now apply write_gr in H.
Qed.
Lemma set_state_gr v st : (v = Closing \/ v = Closed) -> gr st (set_state v st).
Proof.
  intros H. do 4 (split; [reflexivity|]). unfold live. cbn [p_state set_state].
  intros [L|L]; destruct H; congruence.
Qed.
Lemma write_close_frame_gr st by_ data st' e :
  write_close_frame X cfg st by_ data = (st', e) -> gr st st'.
Proof.
  unfold write_close_frame. destruct (is_open _).
  - destruct (write_frame _ _ _ _ _ _ _ _) as [st2 e2] eqn:W. intros H.
    apply pair_equal_spec in H as [<- _]. apply write_frame_gr in W; [|reflexivity].
    eapply gr_trans; [|exact W]. apply set_state_gr. now left.
  - intros H. apply pair_equal_spec in H as [<- _]. apply gr_refl.
Qed.
Lemma cancel_T_gr st : gr st (cancel_T st).
Proof. destruct (cancel_T_shape st) as [b ->]. repeat split. Qed.
Lemma fail_gr st code st' e : fail_connection X cfg st code = (st', e) -> gr st st'.
Proof.
  unfold fail_connection. intros H. eapply gr_trans; [apply cancel_T_gr|].
  set (st1 := cancel_T st) in *. clearbody st1.
  assert (G : forall st2 e2,
    (if negb (code =? 1006)%Z && is_open (p_state st1)
     then match serialize_close code [] with
          | Raise e => (st1, Some e)
          | Ok data => write X cfg (set_state Closing st1) ByFailure (mkframe true CLOSE data)
          end
     else (st1, None)) = (st2, e2) -> gr st1 st2).
  { intros st2 e2. destruct (_ && _); [|intros Q; apply pair_equal_spec in Q as [<- _]; apply gr_refl].
    destruct (serialize_close _ _); [|intros Q; apply pair_equal_spec in Q as [<- _]; apply gr_refl].
    intros Q. eapply gr_trans; [apply (set_state_gr Closing); now left|]. now apply write_gr in Q. }
  destruct (if negb _ && _ then _ else _) as [st2 e2] eqn:Q. eapply gr_trans; [exact (G _ _ eq_refl)|].
  destruct e2; apply pair_equal_spec in H as [<- _]; [apply gr_refl|].
  destruct (p_C st2); repeat split.
Qed.
(* fail_connection(1011) on an open connection starts to close it *)
Lemma fail_1011 st st' e : fail_connection X cfg st 1011 = (st', e) -> p_state st = Open -> p_state st' = Closing.
Proof.
  unfold fail_connection. intros H Ho. destruct (cancel_T_shape st) as [b Eb]. rewrite Eb in H.
  change (p_state (set_Tcancel b st)) with (p_state st) in H. rewrite Ho in H.
  change (negb (1011 =? 1006)%Z && is_open Open) with true in H. cbv iota in H.
  destruct (serialize_close 1011 []) as [d|e0] eqn:Sc; [|discriminate].
  destruct (write _ _ _ _ _) as [st2 e2] eqn:W. apply write_shape in W as (o & x & ->).
  destruct e2; apply pair_equal_spec in H as [<- _]; [reflexivity|].
  destruct (p_C _); reflexivity.
Qed.
Lemma after_drain_gr st a st' r : after_drain X cfg st a = Some (st', r) -> gr st st'.
Proof.
  unfold after_drain. destruct a; try discriminate.
  - intros H. apply some_inj, pair_equal_spec in H as [<- _]. apply gr_refl.
  - destruct (p_lost st) as [l|]; [|discriminate].
    assert (G : (let '(st2, _) := fail_connection X cfg st 1006 in Some (st2, ensure_open st2)) = Some (st', r) -> gr st st').
    { destruct (fail_connection _ _ _ _) as [st2 e2] eqn:F. intros H.
      apply some_inj, pair_equal_spec in H as [<- _]. now apply fail_gr in F. }
    destruct l as [[]|]; destruct o; try discriminate; try exact G;
      intros H; apply some_inj, pair_equal_spec in H as [<- _]; apply gr_refl.
Qed.
Lemma after_drain_exn st a st' e : after_drain X cfg st a = Some (st', ERaise e) -> e <> CancelledError.
Proof.
  assert (C : forall st0 e0, ensure_open st0 = ERaise e0 -> e0 <> CancelledError).
  { intros st0 e0. unfold ensure_open. destruct (p_state st0); [|destruct (T_done st0)| |]; intros Q; try discriminate;
      injection Q as <-; [discriminate|]. unfold connection_closed_exc.
    destruct (p_close st0) as [[code reason]|]; [destruct (_ || _)|]; discriminate. }
  unfold after_drain. destruct a; try discriminate.
  destruct (p_lost st) as [l|]; [|discriminate].
  assert (G : (let '(st2, _) := fail_connection X cfg st 1006 in Some (st2, ensure_open st2)) = Some (st', ERaise e) ->
              e <> CancelledError).
  { destruct (fail_connection _ _ _ _) as [st2 e2] eqn:F. intros H.
    apply some_inj, pair_equal_spec in H as [_ H]. eauto. }
  destruct l as [[]|]; destruct o; try discriminate; try exact G;
    intros H; apply some_inj, pair_equal_spec in H as [_ H]; injection H as <-; discriminate.
Qed.
Lemma ensure_open_end_exn st e : ensure_open_end st = Some e -> e <> CancelledError.
Proof.
  unfold ensure_open_end. destruct (p_C st) as [| | | | | | |[e0|]]; intros H; try discriminate;
    injection H as <-; [discriminate|]. unfold connection_closed_exc.
  destruct (p_close st) as [[code reason]|]; [destruct (_ || _)|]; discriminate.
Qed.
Lemma start_ping_gr st by_ data st' e : start_ping X cfg st by_ data = (st', e) -> gr st st'.
Proof.
  unfold start_ping. intros H. apply write_frame_gr in H; [|reflexivity].
  eapply gr_trans; [|exact H]. repeat split.
Qed.
Lemma T_raise_gr st e : gr st (T_raise X cfg st e).
Proof.
  unfold T_raise.
  assert (G : forall code, gr st (let '(st2, e') := fail_connection X cfg st code in set_T (TDone e') st2)).
  { intros code. destruct (fail_connection _ _ _ _) as [st2 e2] eqn:F. apply fail_gr in F.
    eapply gr_trans; [exact F|]. repeat split. }
  destruct e; try apply G. repeat split.
Qed.
Lemma after_close_gr st c : gr st (after_close X cfg st c).
Proof. unfold after_close. destruct c; try apply T_raise_gr. repeat split. Qed.
Lemma put_message_gr st m : gr st (put_message X cfg st m).
Proof.
  unfold put_message. destruct (room cfg st); [|repeat split].
  destruct (p_pop _); [|repeat split]. destruct (set_result _ _); [repeat split|].
  eapply gr_trans; [|apply T_raise_gr]. repeat split.
Qed.
Lemma step_T_gr st a st' : step_T X cfg st a = Some st' -> gr st st'.
Proof.
  intros H. unfold step_T in H.
  destruct (p_T st) as [|c|c|c|c|c|m w|e] eqn:HT; try discriminate; (destruct (p_Tcancel st);
    [destruct a; try discriminate; apply some_inj in H as <-; eapply gr_trans; [|apply T_raise_gr]; repeat split|]).
  - destruct a; try discriminate. unfold read_frame in H.
    assert (G : match run (legacy_read X (negb (c_client cfg)) (read_limit cfg c)) (p_reader st) (p_exts st) with
        | OSusp _ _ _ => None
        | OFail e r exts => Some (T_raise X cfg (set_reader r (set_exts exts st)) (PyExn e))
        | ODone f r exts =>
          let st := set_in (p_in st ++ [f]) (set_reader r (set_exts exts st)) in
          Some (on_frame X cfg st c f)
        end = Some st' -> gr st st').
    { clear H. destruct (run _ _ _) as [? ? ?|f r ex|e r ex] eqn:Run; cbv zeta; try discriminate; intros H;
        apply some_inj in H as <-; [|eapply gr_trans; [|apply T_raise_gr]; repeat split].
      set (st1 := set_in _ _).
      apply (gr_trans _ st1); [repeat split|]. clearbody st1. clear Run HT.
      unfold on_frame.
      assert (D : gr st1 match read_message cfg c f with
             | RMsg m => put_message X cfg st1 m
             | RNext c => set_T (TRead c) st1
             | RExn e => T_raise X cfg st1 (PyExn e)
             end)
        by (destruct (read_message cfg c f); [apply put_message_gr|repeat split|apply T_raise_gr]).
      destruct (f_opcode f); try exact D.
      - destruct (parse_close _) as [k|]; [|apply T_raise_gr].
        apply (gr_trans _ (set_close (Some k) st1)); [repeat split|].
        destruct (write_close_frame _ _ _ _ _) as [st2 [[?|]|]] eqn:Wc; apply write_close_frame_gr in Wc;
          (eapply gr_trans; [exact Wc|]); [apply T_raise_gr|repeat split|apply after_close_gr].
      - destruct (ensure_open _); [|apply T_raise_gr|repeat split].
        destruct (write_frame _ _ _ _ _ _ _ _) as [st2 [?|]] eqn:Wf; apply write_frame_gr in Wf; try reflexivity;
          (eapply gr_trans; [exact Wf|]); [apply T_raise_gr|repeat split].
      - destruct (receive_pong_shape st1 (f_data f)) as (? & ? & ->). repeat split. }
    destruct (p_lost st) as [[o|]|] eqn:L; [|now apply G|now apply G].
    apply some_inj in H as <-. apply T_raise_gr.
  - destruct (after_drain X cfg st a) as [[st2 r]|] eqn:D; [|discriminate]. apply after_drain_gr in D.
    eapply gr_trans; [exact D|].
    destruct r; apply some_inj in H as <-; [repeat split|apply T_raise_gr|repeat split].
  - destruct a; try discriminate. destruct (ensure_open_end st); [|discriminate].
    apply some_inj in H as <-. apply T_raise_gr.
  - destruct (after_drain X cfg st a) as [[st2 r]|] eqn:D; [|discriminate]. apply after_drain_gr in D.
    eapply gr_trans; [exact D|].
    destruct r; apply some_inj in H as <-; [apply after_close_gr|
      destruct (is_closed_exn e); [apply after_close_gr|apply T_raise_gr]|repeat split].
  - destruct a; try discriminate. destruct (ensure_open_end st); [|discriminate].
    apply some_inj in H as <-. destruct (is_closed_exn p); [apply after_close_gr|apply T_raise_gr].
  - destruct a; try discriminate. destruct (fut_done _); [|discriminate]. apply some_inj in H as <-.
    eapply gr_trans; [|apply put_message_gr]. repeat split.
Qed.
Lemma step_K_gr st a st' : step_K X cfg st a = Some st' -> gr st st'.
Proof.
  intros H. unfold step_K in H.
  destruct (p_K st); try discriminate; (destruct (p_Kcancel st);
    [destruct a; try discriminate; apply some_inj in H as <-; repeat split|]).
  - destruct a; try discriminate. destruct (c_ping_interval cfg); apply some_inj in H as <-; repeat split.
  - destruct a; try discriminate. destruct (_ <=? _); [|discriminate].
    destruct (ensure_open st); [|apply some_inj in H as <-; repeat split|apply some_inj in H as <-; repeat split].
    destruct (random_ok _ _); [|discriminate].
    destruct (start_ping _ _ _ _ _) as [st2 e2] eqn:Q. apply start_ping_gr in Q.
    destruct e2; apply some_inj in H as <-; (eapply gr_trans; [exact Q|]; repeat split).
  - destruct (after_drain X cfg st a) as [[st2 r]|] eqn:D; [|discriminate]. apply after_drain_gr in D.
    eapply gr_trans; [exact D|]. destruct r; apply some_inj in H as <-; try (repeat split; fail).
    unfold after_ping. destruct (find_ping _ _); [|repeat split].
    destruct (c_ping_timeout cfg); [|repeat split]. try destruct (_ =? _); repeat split.
  - destruct a; try discriminate. destruct (ensure_open_end st); [|discriminate].
    apply some_inj in H as <-. repeat split.
  - destruct a; try discriminate.
    + destruct (get_fut _ _); try discriminate; apply some_inj in H as <-; repeat split.
    + destruct (_ <=? _); [|discriminate].
      destruct (fail_connection _ _ _ _) as [st2 e2] eqn:F. apply fail_gr in F. apply some_inj in H as <-.
      eapply gr_trans; [exact F|]. repeat split.
Qed.

(** Calls *)
(* the i-th call isn't in the middle of a fragmented message *)
Definition idle st (i : nat) : Prop :=
  exists pc c, nth_error (p_users st) i = Some (pc, c) /\ ~ fragmenting pc.
Lemma idle_gr st st' i : gr st st' -> idle st i -> idle st' i.
Proof. unfold idle. now intros (-> & _). Qed.

Lemma Sane_set st i pc : Sane st -> idle st i -> ~ fragmenting pc -> Sane (set_user i pc st).
Proof.
  intros (done & current & S1 & S2 & S3 & S4) (pc0 & c0 & Hi & H0) Hpc.
  assert (L : (i < length (p_users st))%nat) by (apply nth_error_Some; congruence).
  exists done, current. split; [exact S1|]. split; [exact S2|]. split; [exact S3|].
  intros Lv. specialize (S4 Lv). unfold Frag in *. cbn [p_frag p_users set_user set_users p_state p_frags].
  destruct (p_frag st) as [w|].
  - destruct S4 as (T0 & T1 & j & pcj & T2 & T3 & T4 & T5). split; [exact T0|]. split; [exact T1|].
    assert (Hij : i <> j) by (intros ->; congruence).
    exists j, pcj. split; [now rewrite nth_error_replace_neq by exact Hij|]. split; [exact T3|].
    split; [exact T4|]. intros k pck c. destruct (Nat.eq_dec i k) as [<-|Hik].
    + rewrite nth_error_replace_eq by exact L. intros Q. injection Q as <- _. contradiction.
    + rewrite nth_error_replace_neq by exact Hik. apply T5.
  - destruct S4 as [T1 T2]. split; [exact T1|]. intros k pck c. destruct (Nat.eq_dec i k) as [<-|Hik].
    + rewrite nth_error_replace_eq by exact L. intros Q. injection Q as <- _. exact Hpc.
    + rewrite nth_error_replace_neq by exact Hik. apply T2.
Qed.
Lemma Sane_set_gr st st1 i pc : gr st st1 -> Sane st -> idle st i -> ~ fragmenting pc -> Sane (set_user i pc st1).
Proof. intros G S0 I F. apply Sane_set; [eapply Sane_gr; eauto|eapply idle_gr; eauto|exact F]. Qed.

(* outcome of writing a data frame *)
Lemma write_frame_spec st by_ fin op data st' e :
  write_frame X cfg st by_ fin op data Open = (st', e) ->
  (p_state st = Open /\ e = None /\
   exists ex d, st' = set_out (p_out st ++ [Sent by_ (mkframe fin op data) d]) (set_exts ex st)) \/
  (exists e', e = Some e' /\ exists ex, st' = set_exts ex st).
Proof.
  unfold write_frame. destruct (p_state st) eqn:Es; cbn [pstate_eqb negb];
    try (intros H; apply pair_equal_spec in H as [<- <-]; right; eexists; split; [reflexivity|];
         exists (p_exts st); now destruct st).
  unfold write. destruct (serialize _ _ _ _ _) as [exts r]. intros H.
  destruct r; apply pair_equal_spec in H as [<- <-].
  - left. split; [reflexivity|]. split; [reflexivity|]. eexists _, _. reflexivity.
  - right. eexists. split; [reflexivity|]. now exists exts.
Qed.

(* the end of a fragmented message, by the i-th call *)
Lemma end_fragments_sane st i r :
  (exists pc, nth_error (p_users st) i = Some (pc, false) /\ fragmenting pc) ->
  Sane st -> (live st -> exists done, datas (p_out st) = concat done /\ Forall whole done) ->
  Sane (end_fragments st i r).
Proof.
  intros (pc0 & Hi & H0) (done & current & S1 & S2 & S3 & S4) Hc.
  assert (L : (i < length (p_users st))%nat) by (apply nth_error_Some; congruence).
  assert (D : live st \/ ~ live st).
  { unfold live. destruct (p_state st); [left; now left|left; now right|right|right]; intros [|]; discriminate. }
  destruct D as [D|D].
  - specialize (S4 D). specialize (Hc D) as (done' & C1 & C2). unfold Frag in S4. unfold end_fragments.
    destruct (p_frag st) as [w|]; [|destruct S4 as [_ S4]; contradiction (S4 i pc0 false)].
    destruct S4 as (T0 & T1 & j & pcj & T2 & T3 & T4 & T5). rewrite (set_result_pending _ _ T1).
    exists done', []. rewrite app_nil_r. split; [exact C1|]. split; [exact C2|]. split; [now left|].
    intros _. unfold Frag. cbn [p_frag return_ set_user set_users set_frag p_users]. split; [reflexivity|].
    intros k pck c. destruct (Nat.eq_dec i k) as [<-|Hik].
    + rewrite nth_error_replace_eq by exact L. intros Q. injection Q as <- _. intros [].
    + rewrite nth_error_replace_neq by exact Hik. intros Q F.
      apply Hik. rewrite (T5 _ _ _ Q F). exact (T5 _ _ _ Hi H0).
  - assert (G : forall st', p_out st' = p_out st -> p_state st' = p_state st -> Sane st').
    { intros st' G1 G2. exists done, current. rewrite G1. split; [exact S1|]. split; [exact S2|].
      split; [exact S3|]. unfold live in *. now rewrite G2. }
    apply G; unfold end_fragments; (destruct (p_frag st); [destruct (set_result _ _)|]); reflexivity.
Qed.
Lemma raise_fragments_sane st i e :
  (exists pc, nth_error (p_users st) i = Some (pc, false) /\ fragmenting pc) ->
  Sane st -> e <> CancelledError -> Sane (raise_fragments X cfg st i e).
Proof.
  intros Hi S0 He. unfold raise_fragments.
  assert (G : Sane (let '(st, e') := fail_connection X cfg st 1011 in
      end_fragments st i (RRaise (match e' with Some e' => PyExn e' | None => e end)))).
  { destruct (fail_connection _ _ _ _) as [st2 e2] eqn:F. pose proof (fail_gr _ _ _ _ F) as G.
    apply end_fragments_sane; [|now apply (Sane_gr st)|].
    - destruct Hi as (pc & Hi & Hf). exists pc. destruct G as (-> & _). now split.
    - intros L. exfalso. pose proof (gr_live _ _ G L) as L0.
      destruct S0 as (done & current & S1 & S2 & S3 & S4). specialize (S4 L0).
      unfold Frag in S4. destruct Hi as (pc & Hi & Hf).
      destruct (p_frag st); [|destruct S4 as [_ S4]; exact (S4 i pc false Hi Hf)].
      destruct S4 as (T0 & _). pose proof (fail_1011 _ _ _ F T0) as Q. unfold live in L.
      destruct L; congruence. }
  destruct e; try exact G. contradiction.
Qed.

Definition busy st i : Prop :=
  exists pc, nth_error (p_users st) i = Some (pc, false) /\ fragmenting pc.
Lemma busy_gr st st' i : gr st st' -> busy st i -> busy st' i.
Proof. unfold busy. now intros (-> & _). Qed.
(* the message in progress, when it isn't finished *)
Definition mid st i : Prop :=
  exists pc, nth_error (p_users st) i = Some (pc, false) /\
    match pc with UFragDrain _ _ | UANext (Some _) => True | _ => False end.
Lemma mid_busy st i : mid st i -> busy st i.
Proof. intros (pc & H1 & H2). exists pc. split; [exact H1|]. destruct pc as [| | | | | | | |[]| | | | | | | |]; try contradiction; exact Logic.I. Qed.
Lemma mid_gr st st' i : gr st st' -> mid st i -> mid st' i.
Proof. unfold mid. now intros (-> & _). Qed.

Lemma begun_data w m : begun w m -> m <> [].
Proof. intros [(f & r & H & _) _] ->. discriminate. Qed.
Lemma begun_next w m x : begun w m -> o_by x = w -> continues (o_frame x) -> f_fin (o_frame x) = false ->
  begun w (m ++ [x]).
Proof.
  intros [(f & r & H & H1 & H2 & H3) A] B C F. split.
  - exists f, (r ++ [o_frame x]). rewrite map_app, H. split; [reflexivity|]. split; [exact H1|].
    split; [exact H2|]. apply Forall_app. split; [exact H3|]. constructor; [|constructor].
    split; [exact C|]. unfold final. congruence.
  - apply Forall_app. split; [exact A|]. now constructor.
Qed.
Lemma begun_last w m x : begun w m -> o_by x = w -> continues (o_frame x) -> f_fin (o_frame x) = true ->
  whole (m ++ [x]).
Proof.
  intros [U A] B C F. split.
  - rewrite map_app. right. exists (map o_frame m), (o_frame x). auto.
  - exists w. apply Forall_app. split; [exact A|]. now constructor.
Qed.

Lemma mid_live st i current :
  mid st i -> (live st -> Frag st current) -> live st ->
  p_state st = Open /\ (exists w, p_frag st = Some w /\ pending (p_frags st) w) /\ begun (ByCall i) current /\
  forall j pc c, nth_error (p_users st) j = Some (pc, c) -> fragmenting pc -> j = i.
Proof.
  intros M F L. specialize (F L). destruct (mid_busy _ _ M) as (pcb & Hb & Fb).
  destruct M as (pc & Hi & Hp). unfold Frag in F.
  destruct (p_frag st) as [w|]; [|destruct F as [_ F]; contradiction (F i pcb false)].
  destruct F as (T0 & T1 & j & pcj & T2 & T3 & T4 & T5).
  assert (i = j) by exact (T5 _ _ _ Hb Fb). subst j.
  split; [exact T0|]. split; [now exists w|]. split; [|exact T5].
  rewrite Hi in T2. injection T2 as <-.
  destruct pc as [| | | | | | | |[]| | | | | | | |]; try contradiction; exact T4.
Qed.
Lemma live_dec st : live st \/ ~ live st.
Proof. unfold live. destruct (p_state st); [left; now left|left; now right|right|right]; intros [|]; discriminate. Qed.

Lemma send_item_sane st i op rest d : Sane st -> mid st i -> Sane (send_item X cfg st i op rest d).
Proof.
  intros S0 M. unfold send_item.
  assert (R : forall st1 e, gr st st1 -> Sane (raise_fragments X cfg st1 i (PyExn e))).
  { intros st1 e G. apply raise_fragments_sane; [|now apply (Sane_gr st)|discriminate].
    apply (busy_gr st); [exact G|now apply mid_busy]. }
  destruct (prepare_data d) as [[op' data]|e]; [|apply R, gr_refl].
  destruct (negb _); [apply R, gr_refl|].
  destruct (write_frame _ _ _ _ _ _ _ _) as [st2 e2] eqn:W.
  apply write_frame_spec in W as [(Ho & -> & ex & d' & ->)|(e' & -> & ex & ->)]; [|apply R; repeat split].
  destruct S0 as (done & current & S1 & S2 & S3 & S4).
  assert (L : live st) by (now right).
  destruct (mid_live _ _ _ M S4 L) as (T0 & (w & T1 & T1') & T2 & T3).
  assert (Len : (i < length (p_users st))%nat)
    by (destruct M as (? & M & _); apply nth_error_Some; congruence).
  set (x := Sent (ByCall i) (mkframe false CONT data) d').
  assert (B : begun (ByCall i) (current ++ [x])) by (now apply begun_next).
  exists done, (current ++ [x]).
  split; [cbn [p_out set_user set_users set_out]; rewrite datas_snoc_data by reflexivity; rewrite S1; now rewrite app_assoc|].
  split; [exact S2|]. split; [right; eauto|]. intros _. unfold Frag.
  cbn [p_frag p_frags p_users set_user set_users set_out set_exts p_state]. rewrite T1.
  split; [exact T0|]. split; [exact T1'|]. exists i, (UFragDrain op rest).
  split; [now apply nth_error_replace_eq|]. split; [exact Logic.I|]. split; [exact B|].
  intros j pc c. destruct (Nat.eq_dec i j) as [<-|Hij]; [reflexivity|].
  rewrite nth_error_replace_neq by exact Hij. apply T3.
Qed.
Lemma send_last_sane st i : Sane st -> mid st i -> Sane (send_last X cfg st i).
Proof.
  intros S0 M. unfold send_last.
  destruct (write_frame _ _ _ _ _ _ _ _) as [st2 e2] eqn:W.
  apply write_frame_spec in W as [(Ho & -> & ex & d' & ->)|(e' & -> & ex & ->)].
  - destruct S0 as (done & current & S1 & S2 & S3 & S4).
    assert (L : live st) by (now right).
    destruct (mid_live _ _ _ M S4 L) as (T0 & (w & T1 & T1') & T2 & T3).
    assert (Len : (i < length (p_users st))%nat)
      by (destruct M as (? & M & _); apply nth_error_Some; congruence).
    set (x := Sent (ByCall i) (mkframe true CONT []) d').
    exists (done ++ [current ++ [x]]), [].
    split; [cbn [p_out set_user set_users set_out]; rewrite datas_snoc_data by reflexivity;
            rewrite S1, concat_app; cbn [concat]; now rewrite !app_nil_r, app_assoc|].
    split; [apply Forall_app; split; [exact S2|]; constructor; [|constructor]; now apply (begun_last (ByCall i))|].
    split; [now left|]. intros _. unfold Frag.
    cbn [p_frag p_frags p_users set_user set_users set_out set_exts p_state]. rewrite T1.
    split; [exact T0|]. split; [exact T1'|]. exists i, UFragLast.
    split; [now apply nth_error_replace_eq|]. split; [exact Logic.I|]. split; [reflexivity|].
    intros j pc c. destruct (Nat.eq_dec i j) as [<-|Hij]; [reflexivity|].
    rewrite nth_error_replace_neq by exact Hij. apply T3.
  - apply raise_fragments_sane; [now apply mid_busy in M|apply (Sane_gr st); [repeat split|exact S0]|discriminate].
Qed.
(* from one point of a fragmented message to another one *)
Lemma Sane_move st i pc : Sane st -> busy st i -> fragmenting pc ->
  (forall current, (live st -> Frag st current) -> live st -> at_point i pc current) -> Sane (set_user i pc st).
Proof.
  intros (done & current & S1 & S2 & S3 & S4) (pcb & Hb & Fb) Hp Ha.
  assert (Len : (i < length (p_users st))%nat) by (apply nth_error_Some; congruence).
  exists done, current. split; [exact S1|]. split; [exact S2|]. split; [exact S3|].
  intros L. specialize (Ha current S4 L). specialize (S4 L). unfold Frag in *.
  cbn [p_frag p_frags p_users set_user set_users p_state].
  destruct (p_frag st) as [w|]; [|destruct S4 as [_ S4]; contradiction (S4 i pcb false)].
  destruct S4 as (T0 & T1 & j & pcj & T2 & T3 & T4 & T5).
  assert (i = j) by exact (T5 _ _ _ Hb Fb). subst j.
  split; [exact T0|]. split; [exact T1|]. exists i, pc.
  split; [now apply nth_error_replace_eq|]. split; [exact Hp|]. split; [exact Ha|].
  intros j pc' c. destruct (Nat.eq_dec i j) as [<-|Hij]; [reflexivity|].
  rewrite nth_error_replace_neq by exact Hij. apply T5.
Qed.
Lemma send_next_sane st i op src : Sane st -> mid st i -> Sane (send_next X cfg st i op src).
Proof.
  intros S0 M. unfold send_next. destruct src as [[|d rest] e|].
  - destruct e; [|now apply send_last_sane].
    apply raise_fragments_sane; [now apply mid_busy in M|exact S0|discriminate].
  - now apply send_item_sane.
  - apply Sane_move; [exact S0|now apply mid_busy|exact Logic.I|].
    intros current F L. cbn [at_point].
    apply (mid_live st i current M F L).
Qed.
Lemma prepare_data_op d op data : prepare_data d = Ok (op, data) -> op = TEXT \/ op = BINARY.
Proof.
  unfold prepare_data. destruct d; try discriminate.
  - destruct (Utf8.utf8_encode x) as [y|]; [|discriminate]. intros H.
    apply ok_inj, pair_equal_spec in H as [<- _]. now left.
  - intros H. apply ok_inj, pair_equal_spec in H as [<- _]. now right.
Qed.
Lemma send_first_sane st i rest d :
  Sane st -> idle st i -> p_frag st = None -> Sane (send_first X cfg st i rest d).
Proof.
  intros S0 I Hf. unfold send_first.
  destruct (prepare_data d) as [[op data]|e] eqn:Pd; [|apply Sane_set; auto; intros []].
  assert (Op : op = TEXT \/ op = BINARY).
  { now apply prepare_data_op in Pd. }
  set (w := length (p_frags st)).
  set (st1 := set_frag (Some w) (set_frags (p_frags st ++ [FPending]) st)).
  assert (Len : (i < length (p_users st))%nat)
    by (destruct I as (? & ? & I & _); apply nth_error_Some; congruence).
  destruct (write_frame _ _ _ _ _ _ _ _) as [st2 e2] eqn:W.
  destruct S0 as (done & current & S1 & S2 & S3 & S4).
  apply write_frame_spec in W as [(Ho & -> & ex & d' & ->)|(e' & -> & ex & ->)].
  - assert (L : live st) by (now right). specialize (S4 L). unfold Frag in S4. rewrite Hf in S4.
    destruct S4 as [-> T]. set (x := Sent (ByCall i) (mkframe false op data) d').
    assert (B : begun (ByCall i) [x]).
    { split; [|now constructor]. exists (o_frame x), []. split; [reflexivity|]. split; [exact Op|].
      split; [discriminate|constructor]. }
    exists done, [x]. rewrite app_nil_r in S1.
    split; [cbn [p_out set_user set_users set_out]; rewrite datas_snoc_data by (destruct Op as [-> | ->]; reflexivity);
            unfold st1; cbn [p_out set_exts set_frag set_frags]; now rewrite S1|].
    split; [exact S2|]. split; [right; eauto|]. intros _. unfold Frag.
    cbn [p_frag p_frags p_users set_user set_users set_out set_exts p_state set_frag st1].
    split; [exact Ho|]. split; [apply pending_new|]. exists i, (UFragDrain op rest).
    split; [now apply nth_error_replace_eq|]. split; [exact Logic.I|]. split; [exact B|].
    intros j pc c. destruct (Nat.eq_dec i j) as [<-|Hij]; [reflexivity|].
    rewrite nth_error_replace_neq by exact Hij. intros Q F. destruct (T _ _ _ Q F).
  - (* nothing was written: fail_connection, then the waiter is removed *)
    unfold raise_fragments. destruct (fail_connection _ _ _ _) as [st3 e3] eqn:F.
    pose proof (fail_gr _ _ _ _ F) as G.
    assert (P : p_frag st3 = Some w /\ pending (p_frags st3) w).
    { destruct G as (_ & -> & -> & _). split; [reflexivity|]. apply pending_new. }
    destruct P as [P1 P2]. unfold end_fragments. rewrite P1, (set_result_pending _ _ P2).
    assert (G1 : p_users st3 = p_users st) by (destruct G as (-> & _); reflexivity).
    assert (G2 : datas (p_out st3) = datas (p_out st)) by (destruct G as (_ & _ & _ & -> & _); reflexivity).
    exists done, current. cbn [p_out return_ set_user set_users set_frag set_frags]. rewrite G2.
    split; [exact S1|]. split; [exact S2|]. split; [exact S3|]. intros L.
    assert (L0 : live st).
    { pose proof (gr_live _ _ G) as Q. apply Q. exact L. }
    specialize (S4 L0). unfold Frag in *. rewrite Hf in S4.
    cbn [p_frag p_frags p_users return_ set_user set_users set_frag set_frags]. rewrite G1.
    destruct S4 as [-> T]. split; [reflexivity|]. intros j pc c. destruct (Nat.eq_dec i j) as [<-|Hij].
    + rewrite nth_error_replace_eq by exact Len. intros Q. injection Q as <- _. intros [].
    + rewrite nth_error_replace_neq by exact Hij. apply T.
Qed.
Lemma send_loop_sane st i m : Sane st -> idle st i -> Sane (send_loop X cfg st i m).
Proof.
  intros S0 I. unfold send_loop.
  destruct (p_frag st) as [w|] eqn:Hf; [apply Sane_set; auto; intros []|].
  destruct m as [d| |[|d rest] e| |]; try (apply Sane_set; auto; intros []; fail);
    [|destruct e; apply Sane_set; auto; intros []|now apply send_first_sane].
  destruct (prepare_data d) as [[op data]|e] eqn:Pd; [|apply Sane_set; auto; intros []].
  assert (Op : op = TEXT \/ op = BINARY).
  { now apply prepare_data_op in Pd. }
  destruct (write_frame _ _ _ _ _ _ _ _) as [st2 e2] eqn:W.
  apply write_frame_spec in W as [(Ho & -> & ex & d' & ->)|(e' & -> & ex & ->)];
    [|apply (Sane_set_gr st); [repeat split|exact S0|exact I|intros []]].
  apply Sane_set; [|exact I|intros []].
  destruct S0 as (done & current & S1 & S2 & S3 & S4).
  assert (L : live st) by (now right). specialize (S4 L). unfold Frag in S4. rewrite Hf in S4.
  destruct S4 as [-> T]. rewrite app_nil_r in S1. set (x := Sent (ByCall i) (mkframe true op data) d').
  exists (done ++ [[x]]), []. rewrite app_nil_r.
  split; [cbn [p_out set_out]; rewrite datas_snoc_data by (destruct Op as [-> | ->]; reflexivity);
          rewrite S1, concat_app; reflexivity|].
  split; [apply Forall_app; split; [exact S2|]; constructor; [|constructor]|].
  { split; [left; now exists (o_frame x)|]. exists (ByCall i). now constructor. }
  split; [now left|]. intros _. unfold Frag. cbn [p_frag set_out set_exts p_users]. rewrite Hf. now split.
Qed.

(* A step of a call that doesn't send a message *)
Lemma busy_pc st i pc : nth_error (p_users st) i = Some (pc, false) -> fragmenting pc -> busy st i.
Proof. intros H1 H2. now exists pc. Qed.

Lemma close_wait_T_sane st st1 i t0 : gr st st1 -> Sane st -> idle st i -> Sane (close_wait_T cfg st1 i t0).
Proof.
  intros G S0 I. unfold close_wait_T. destruct (T_exists st1); (eapply Sane_set_gr; eauto; intros []).
Qed.
Lemma close_timed_out_sane st i t0 : Sane st -> idle st i -> Sane (close_timed_out X cfg st i t0).
Proof.
  intros S0 I. unfold close_timed_out. destruct (fail_connection _ _ _ _) as [st2 e2] eqn:F.
  apply fail_gr in F. now apply (close_wait_T_sane st).
Qed.
Lemma recv_loop_sane st st1 i : gr st st1 -> Sane st -> idle st i -> Sane (recv_loop st1 i).
Proof.
  intros G S0 I. unfold recv_loop.
  destruct (p_messages st1) as [|m rest]; [destruct (T_exists _)|destruct (p_put _); [destruct (set_result _ _)|]];
    (apply (Sane_set_gr st); [eapply gr_trans; [exact G|]; repeat split|exact S0|exact I|intros []]).
Qed.
Lemma cancel_call_sane st i pc :
  Sane st -> nth_error (p_users st) i = Some (pc, true) -> Sane (cancel_call X cfg st i pc).
Proof.
  intros S0 Hi.
  assert (D : fragmenting pc \/ ~ fragmenting pc)
    by (destruct pc as [| | | | | | | |[]| | | | | | | |]; cbn [fragmenting]; tauto).
  destruct D as [D|D].
  - assert (NL : ~ live st).
    { intros L. destruct S0 as (done & current & S1 & S2 & S3 & S4). specialize (S4 L). unfold Frag in S4.
      destruct (p_frag st); [|destruct S4 as [_ S4]; exact (S4 i pc true Hi D)].
      destruct S4 as (T0 & T1 & j & pcj & T2 & T3 & T4 & T5).
      rewrite (T5 _ _ _ Hi D) in Hi. congruence. }
    assert (E0 : cancel_call X cfg st i pc = end_fragments st i (RRaise CancelledError))
      by (destruct pc as [| | | | | | | |[]| | | | | | | |]; try contradiction; reflexivity).
    rewrite E0. destruct S0 as (done & current & S1 & S2 & S3 & S4). exists done, current.
    assert (G : p_out (end_fragments st i (RRaise CancelledError)) = p_out st /\
                p_state (end_fragments st i (RRaise CancelledError)) = p_state st).
    { unfold end_fragments. destruct (p_frag st); [destruct (set_result _ _)|]; split; reflexivity. }
    destruct G as [-> G]. split; [exact S1|]. split; [exact S2|]. split; [exact S3|].
    unfold live in *. rewrite G. contradiction.
  - assert (I : idle st i) by (now exists pc, true).
    destruct pc as [| | | | | | | |[]| | | | | | | |]; cbn [cancel_call]; try (apply Sane_set; auto; intros []; fail);
      try (contradiction D; exact Logic.I).
    apply (Sane_set_gr st); [apply cancel_T_gr|exact S0|exact I|intros []].
Qed.
Lemma start_call_sane st i c a st' :
  Sane st -> idle st i -> start_call X cfg st i c a = Some st' -> Sane st'.
Proof.
  intros S0 I H.
  assert (Q : forall pc, ~ fragmenting pc -> Sane (set_user i pc st)) by (intros; now apply Sane_set).
  assert (Qg : forall st1 pc, gr st st1 -> ~ fragmenting pc -> Sane (set_user i pc st1))
    by (intros; eapply Sane_set_gr; eauto).
  unfold start_call in H. destruct c; destruct a; try discriminate; try (apply some_inj in H as <-).
  - destruct (p_pop st); [apply Q; intros []|apply (recv_loop_sane st); auto using gr_refl].
  - destruct (ensure_open st); [now apply send_loop_sane|apply Q; intros []|apply Q; intros []].
  - unfold close_start. destruct (serialize_close _ _) as [data|]; [|apply Q; intros []].
    assert (G : Sane (match write_close_frame X cfg st (ByCall i) data with
       | (st, None) => close_wait_T cfg st i (p_now st)
       | (st, Some (Some e)) => raise_ i (PyExn e) st
       | (st, Some None) => set_user i (UCloseWrite (deadline st (c_close_timeout cfg)) (p_now st)) st
       end)).
    { destruct (write_close_frame _ _ _ _ _) as [st2 r] eqn:W. apply write_close_frame_gr in W.
      destruct r as [[e|]|]; [apply Qg; [exact W|intros []]|apply Qg; [exact W|intros []]|].
      now apply (close_wait_T_sane st). }
    destruct (c_close_timeout cfg) as [[|q]|]; [now apply close_timed_out_sane|exact G|exact G].
  - destruct (ensure_open st); [|apply some_inj in H as <-; apply Q; intros []..].
    destruct data as [d|].
    + destruct (prepare_ctrl d); [|apply some_inj in H as <-; apply Q; intros []].
      destruct (has_ping _ _); [apply some_inj in H as <-; apply Q; intros []|].
      destruct (start_ping _ _ _ _ _) as [st2 e] eqn:W. apply start_ping_gr in W.
      destruct e; apply some_inj in H as <-; (apply Qg; [exact W|intros []]).
    + destruct (random_ok _ _); [|discriminate].
      destruct (start_ping _ _ _ _ _) as [st2 e] eqn:W. apply start_ping_gr in W.
      destruct e; apply some_inj in H as <-; (apply Qg; [exact W|intros []]).
  - destruct (ensure_open st); [|apply Q; intros []..]. destruct (prepare_ctrl data); [|apply Q; intros []].
    destruct (write_frame _ _ _ _ _ _ _ _) as [st2 e] eqn:W. apply write_frame_gr in W; [|reflexivity].
    destruct e; (apply Qg; [exact W|intros []]).
  - apply Q; intros [].
Qed.

Lemma step_user_sane st i a st' :
  Sane st -> ~ overlaps st (LUser i a) -> step_user X cfg st i a = Some st' -> Sane st'.
Proof.
  intros S0 Ho H. unfold step_user in H.
  destruct (nth_error (p_users st) i) as [[pc c]|] eqn:Hi; [|discriminate].
  destruct c.
  { assert (H' : match a with Go => Some (cancel_call X cfg st i pc) | _ => None end = Some st')
      by (destruct pc; try exact H; discriminate).
    destruct a; try discriminate. apply some_inj in H' as <-. now apply cancel_call_sane. }
  assert (H' : step_call X cfg st i pc a = Some st') by (destruct pc; try exact H; discriminate).
  clear H. rename H' into H.
  assert (D : fragmenting pc \/ ~ fragmenting pc)
    by (destruct pc as [| | | | | | | |[]| | | | | | | |]; cbn [fragmenting]; tauto).
  unfold step_call in H. destruct D as [D|D].
  - assert (B : busy st i) by (now exists pc).
    assert (R : forall st1 e, gr st st1 -> e <> CancelledError -> Sane (raise_fragments X cfg st1 i e)).
    { intros st1 e G He. apply raise_fragments_sane; [|now apply (Sane_gr st)|exact He].
      now apply (busy_gr st). }
    assert (We : forall st1, gr st st1 -> Sane (set_user i UFragEnsure st1)).
    { intros st1 G. apply Sane_move; [now apply (Sane_gr st)|now apply (busy_gr st)|exact Logic.I|].
      intros; exact Logic.I. }
    destruct pc as [| | | | |op src| | |[op|]| | | | | | | |]; try contradiction.
    + assert (M : mid st i) by (now exists (UFragDrain op src)).
      destruct (after_drain X cfg st a) as [[st2 r]|] eqn:Q; [|discriminate].
      pose proof (after_drain_gr _ _ _ _ Q) as G.
      destruct r; apply some_inj in H as <-.
      * apply send_next_sane; [now apply (Sane_gr st)|now apply (mid_gr st)].
      * apply R; [exact G|]. eapply after_drain_exn, Q.
      * now apply We.
    + destruct (after_drain X cfg st a) as [[st2 r]|] eqn:Q; [|discriminate].
      pose proof (after_drain_gr _ _ _ _ Q) as G.
      destruct r; apply some_inj in H as <-.
      * apply end_fragments_sane; [exact (busy_gr st st2 i G B)|now apply (Sane_gr st)|].
        intros L. pose proof (Sane_gr _ _ G S0) as (done & current & S1 & S2 & S3 & S4).
        specialize (S4 L). assert (Hi2 : nth_error (p_users st2) i = Some (UFragLast, false))
          by (destruct G as (-> & _); exact Hi).
        unfold Frag in S4. destruct (p_frag st2); [|destruct S4 as [_ S4]; contradiction (S4 i UFragLast false)].
        destruct S4 as (T0 & T1 & j & pcj & T2 & T3 & T4 & T5).
        rewrite <- (T5 _ _ _ Hi2 Logic.I) in T2. rewrite Hi2 in T2. injection T2 as <-. cbn [at_point] in T4.
        exists done. subst current. now rewrite app_nil_r in S1.
      * apply R; [exact G|]. eapply after_drain_exn, Q.
      * now apply We.
    + destruct a; try discriminate. destruct (ensure_open_end st) eqn:Q; [|discriminate].
      apply some_inj in H as <-. apply R; [apply gr_refl|]. eapply ensure_open_end_exn, Q.
    + assert (M : mid st i) by (now exists (UANext (Some op))).
      destruct a as [| | | | |[]]; try discriminate; apply some_inj in H as <-.
      * now apply send_item_sane.
      * now apply send_last_sane.
      * apply R; [apply gr_refl|discriminate].
  - assert (I : idle st i) by (now exists pc, false).
    assert (Q : forall pc, ~ fragmenting pc -> Sane (set_user i pc st)) by (intros; now apply Sane_set).
    assert (Qg : forall st1 pc, gr st st1 -> ~ fragmenting pc -> Sane (set_user i pc st1))
      by (intros; eapply Sane_set_gr; eauto).
    destruct pc as [c|w|w m| | |op src| | |[op|]|data|d t0|d t0|d t0|t0|t0| |r]; try (contradiction D; exact Logic.I).
    + now apply (start_call_sane st i c a).
    + destruct a; try discriminate. destruct (_ || _); [|discriminate]. apply some_inj in H as <-.
      unfold recv_resume. cbv zeta. assert (G : gr st (set_pop None st)) by (repeat split).
      destruct (fut_done _); [now apply (recv_loop_sane st)|].
      destruct (c_legacy_recv cfg); [apply Qg; [exact G|intros []]|].
      destruct (ensure_open _); [now apply (recv_loop_sane st)|apply Qg; [exact G|intros []]..].
    + destruct a; try discriminate. destruct (fut_done _); [|discriminate]. apply some_inj in H as <-.
      now apply send_loop_sane.
    + destruct a; try discriminate. destruct (ensure_open_end st); [|discriminate]. apply some_inj in H as <-.
      apply Q; intros [].
    + destruct (after_drain X cfg st a) as [[st2 r]|] eqn:W; [|discriminate]. apply after_drain_gr in W.
      destruct r; apply some_inj in H as <-; (apply Qg; [exact W|intros []]).
    + destruct a as [| | | | |[]]; try discriminate; apply some_inj in H as <-; [|apply Q; intros []..].
      destruct (p_frag st) eqn:Hf; [|now apply send_first_sane].
      contradiction Ho. exists i, d, false. split; [reflexivity|]. split; [exact Hi|congruence].
    + destruct (after_drain X cfg st a) as [[st2 r]|] eqn:W; [|discriminate]. apply after_drain_gr in W.
      destruct r; apply some_inj in H as <-; [|apply Qg; [exact W|intros []]..].
      destruct (find_ping _ _); (apply Qg; [exact W|intros []]).
    + assert (G : match after_drain X cfg st a with
                  | Some (st, EOk) => Some (close_wait_T cfg st i t0)
                  | Some (st, ERaise e) => Some (raise_ i e st)
                  | Some (st, EWait) => Some (set_user i (UCloseEnsure d t0) st)
                  | None => None
                  end = Some st' -> Sane st').
      { destruct (after_drain X cfg st a) as [[st2 r]|] eqn:W; [|discriminate]. apply after_drain_gr in W.
        destruct r; intros K; apply some_inj in K as <-; [now apply (close_wait_T_sane st)|apply Qg; [exact W|intros []]..]. }
      destruct a; try (now apply G). destruct (expired st d); [|discriminate]. apply some_inj in H as <-.
      now apply close_timed_out_sane.
    + destruct a; try discriminate.
      * destruct (ensure_open_end st); [|discriminate]. apply some_inj in H as <-. apply Q; intros [].
      * destruct (expired st d); [|discriminate]. apply some_inj in H as <-. now apply close_timed_out_sane.
    + destruct a; try discriminate.
      * destruct (p_T st) as [| | | | | | |[e|]]; try discriminate; apply some_inj in H as <-; apply Q; intros [].
      * destruct (expired st d); [|discriminate]. apply some_inj in H as <-.
        apply Qg; [apply cancel_T_gr|intros []].
    + destruct a; try discriminate. destruct (T_done st); [|discriminate]. apply some_inj in H as <-. apply Q; intros [].
    + destruct a; try discriminate.
      destruct (p_C st) as [| | | | | | |[e|]]; try discriminate; apply some_inj in H as <-; apply Q; intros [].
    + destruct a; try discriminate. destruct (is_lost st); [|discriminate]. apply some_inj in H as <-. apply Q; intros [].
    + discriminate.
Qed.

Lemma Sane_step st l st' :
  Base st -> Sane st -> ~ overlaps st l -> ~ interrupts st l -> step X cfg st l = Some st' -> Sane st'.
Proof.
  intros B S0 Ho Hc H. destruct l; cbn [step] in H.
  - destruct (p_state st) eqn:Es; try discriminate. destruct (p_C st); try discriminate.
    apply some_inj in H as <-. destruct S0 as (done & current & S1 & S2 & S3 & S4).
    exists done, current. split; [exact S1|]. split; [exact S2|]. split; [exact S3|]. intros _.
    assert (L : live st) by (now left). specialize (S4 L). unfold Frag in *.
    change (p_frag (connection_open st)) with (p_frag st).
    destruct (p_frag st) eqn:Hf; [destruct S4 as [S4 _]; congruence|].
    exact S4.
  - destruct (fail_connection _ _ _ _) as [st2 e2] eqn:F. apply some_inj in H as <-. apply fail_gr in F.
    now apply (Sane_gr st).
  - destruct (r_eof _); [discriminate|]. apply some_inj in H as <-. apply (Sane_gr st); [repeat split|exact S0].
  - destruct (r_eof _); [discriminate|]. apply some_inj in H as <-. apply (Sane_gr st); [repeat split|exact S0].
  - destruct (connection_lost_shape st o closing) as (? & ? & ? & ? & ? & Q).
    assert (G : gr st (connection_lost st o closing)).
    { rewrite Q. do 4 (split; [reflexivity|]). intros [L|L]; discriminate. }
    destruct (p_state st); try discriminate; apply some_inj in H as <-; now apply (Sane_gr st).
  - apply some_inj in H as <-. apply (Sane_gr st); [repeat split|exact S0].
  - apply some_inj in H as <-. apply (Sane_gr st); [repeat split|exact S0].
  - apply some_inj in H as <-. destruct S0 as (done & current & S1 & S2 & S3 & S4).
    exists done, current. split; [exact S1|]. split; [exact S2|]. split; [exact S3|]. intros L.
    specialize (S4 L). unfold Frag in *. cbn [p_frag p_frags p_users set_users p_state].
    assert (N : forall j pc c', nth_error (p_users st ++ [(UStart c, false)]) j = Some (pc, c') -> fragmenting pc ->
                nth_error (p_users st) j = Some (pc, c')).
    { intros j pc c' Q F. destruct (Nat.lt_ge_cases j (length (p_users st))) as [Lj|G].
      - now rewrite nth_error_app1 in Q by exact Lj.
      - rewrite nth_error_app2 in Q by exact G.
        destruct (j - length (p_users st))%nat as [|[]]; try discriminate. injection Q as <- _. destruct F. }
    destruct (p_frag st).
    + destruct S4 as (T0 & T1 & i & pc & T2 & T3 & T4 & T5). split; [exact T0|]. split; [exact T1|].
      exists i, pc. split; [rewrite nth_error_app1; [exact T2|]; apply nth_error_Some; congruence|].
      split; [exact T3|]. split; [exact T4|]. eauto.
    + destruct S4 as [T1 T2]. split; [exact T1|]. intros j pc c' Q F. exact (T2 j pc c' (N _ _ _ Q F) F).
  - destruct (nth_error _ _) as [[pc c]|] eqn:Hi; [|discriminate].
    assert (H' : set_users (replace i (pc, true) (p_users st)) st = st') by (destruct pc; congruence).
    clear H. subst st'.
    assert (NF : ~ fragmenting pc) by (intros F; apply Hc; now exists i, pc, c).
    assert (Len : (i < length (p_users st))%nat) by (apply nth_error_Some; congruence).
    destruct S0 as (done & current & S1 & S2 & S3 & S4).
    exists done, current. split; [exact S1|]. split; [exact S2|]. split; [exact S3|]. intros L.
    specialize (S4 L). unfold Frag in *. cbn [p_frag p_frags p_users set_users p_state].
    destruct (p_frag st).
    + destruct S4 as (T0 & T1 & k & pck & T2 & T3 & T4 & T5). split; [exact T0|]. split; [exact T1|].
      assert (Hik : i <> k) by (intros ->; congruence).
      exists k, pck. split; [now rewrite nth_error_replace_neq by exact Hik|].
      split; [exact T3|]. split; [exact T4|]. intros j pc' c'. destruct (Nat.eq_dec i j) as [<-|Hij].
      * rewrite nth_error_replace_eq by exact Len. intros Q F. injection Q as <- _. contradiction.
      * rewrite nth_error_replace_neq by exact Hij. apply T5.
    + destruct S4 as [T1 T2]. split; [exact T1|]. intros j pc' c'. destruct (Nat.eq_dec i j) as [<-|Hij].
      * rewrite nth_error_replace_eq by exact Len. intros Q. injection Q as <- _. exact NF.
      * rewrite nth_error_replace_neq by exact Hij. apply T2.
  - apply step_T_gr in H. now apply (Sane_gr st).
  - apply step_K_gr in H. now apply (Sane_gr st).
  - apply step_C_shape in H as (? & ? & ? & ? & ? & ->). apply (Sane_gr st); [repeat split|exact S0].
  - eapply step_user_sane; eauto.
Qed.
Lemma Sane_exec exts ls st :
  (forall before l after st1, ls = before ++ l :: after -> exec X cfg (initial exts) before = Some st1 ->
     ~ overlaps st1 l /\ ~ interrupts st1 l) ->
  exec X cfg (initial exts) ls = Some st -> Sane st.
Proof.
  revert st. induction ls as [|l ls IH] using rev_ind; intros st Ho H.
  - cbn in H. apply some_inj in H as <-. exists [], []. split; [reflexivity|]. split; [constructor|].
    split; [now left|]. intros _. split; [reflexivity|]. intros j pc c Q. destruct j; discriminate.
  - rewrite exec_app in H. destruct (exec X cfg (initial exts) ls) as [st1|] eqn:H1; [|discriminate].
    cbn [exec] in H. destruct (step X cfg st1 l) as [st2|] eqn:H2; [|discriminate].
    apply some_inj in H as <-. destruct (Ho ls l [] st1 eq_refl H1) as [A1 A2].
    apply (Sane_step st1 l); [eapply Base_exec; eauto|apply IH; [|reflexivity]|exact A1|exact A2|exact H2].
    intros before l' after st' -> Hb. apply (Ho before l' (after ++ [l]) st'); [|exact Hb].
    now rewrite <- app_assoc.
Qed.
End Fragments.
