(* Which fields the helpers of Model/LegacyProtocol.v assign. *)
From Verif Require Import Base.Prelude Base.PreludeFacts Model.Streams Model.Frames
  Model.LegacyFraming Model.LegacyProtocol.
Local Open Scope N_scope.

Section Shapes.
Context {E : Type} (X : ext_ops E) (cfg : config).
Implicit Type st : conn E.

Lemma cancel_T_shape st : exists b, cancel_T st = set_Tcancel b st.
Proof.
  unfold cancel_T. destruct (_ && _); [now exists true|].
  exists (p_Tcancel st). now destruct st.
Qed.
Lemma write_shape st by_ f st' e :
  write X cfg st by_ f = (st', e) -> exists o x, st' = set_out o (set_exts x st).
Proof.
  unfold write. destruct (serialize _ _ _ _ _) as [exts r]. intros H.
  destruct r; apply pair_equal_spec in H as [<- _].
  - eexists _, exts. reflexivity.
  - exists (p_out st), exts. now destruct st.
Qed.
Lemma write_frame_shape st by_ fin op data expected st' e :
  write_frame X cfg st by_ fin op data expected = (st', e) ->
  exists o x, st' = set_out o (set_exts x st).
Proof.
  unfold write_frame. destruct (negb _); [|apply write_shape]. intros H.
  apply pair_equal_spec in H as [<- _]. exists (p_out st), (p_exts st). now destruct st.
Qed.
Lemma write_close_frame_shape st by_ data st' e :
  write_close_frame X cfg st by_ data = (st', e) ->
  exists o x s, st' = set_out o (set_exts x (set_state s st)).
Proof.
  unfold write_close_frame. destruct (is_open _).
  - destruct (write_frame _ _ _ _ _ _ _ _) as [st2 e2] eqn:W. intros H.
    apply pair_equal_spec in H as [<- _]. apply write_frame_shape in W as (o & x & ->).
    now exists o, x, Closing.
  - intros H. apply pair_equal_spec in H as [<- _]. exists (p_out st), (p_exts st), (p_state st).
    now destruct st.
Qed.
Lemma fail_shape st code st' e :
  fail_connection X cfg st code = (st', e) ->
  exists c o x s b, st' = set_C c (set_out o (set_exts x (set_state s (set_Tcancel b st)))).
Proof.
  unfold fail_connection. destruct (cancel_T_shape st) as [b ->]. set (st1 := set_Tcancel b st).
  assert (G : forall st2 e2,
    (if negb (code =? 1006)%Z && is_open (p_state st1)
     then match serialize_close code [] with
          | Raise e => (st1, Some e)
          | Ok data => write X cfg (set_state Closing st1) ByFailure (mkframe true CLOSE data)
          end
     else (st1, None)) = (st2, e2) ->
    exists o x s, st2 = set_out o (set_exts x (set_state s st1))).
  { intros st2 e2.
    assert (S : exists o x s, st1 = set_out o (set_exts x (set_state s st1)))
      by (exists (p_out st1), (p_exts st1), (p_state st1); now destruct st).
    destruct (_ && _); [destruct (serialize_close _ _)|]; intros H.
    - apply write_shape in H as (o & x & ->). now exists o, x, Closing.
    - apply pair_equal_spec in H as [<- _]. exact S.
    - apply pair_equal_spec in H as [<- _]. exact S. }
  destruct (if negb _ && _ then _ else _) as [st2 e2] eqn:Q. destruct (G _ _ eq_refl) as (o & x & s & ->).
  destruct e2 as [e2|]; intros H; apply pair_equal_spec in H as [<- _].
  - exists (p_C st), o, x, s, b. now destruct st.
  - destruct (p_C (set_out o (set_exts x (set_state s st1)))) eqn:EC;
      [now exists CStart, o, x, s, b|..]; eexists _, o, x, s, b; unfold st1; destruct st; cbn in EC |- *; reflexivity.
Qed.
Lemma after_drain_shape st a st' r :
  after_drain X cfg st a = Some (st', r) ->
  exists c o x s b, st' = set_C c (set_out o (set_exts x (set_state s (set_Tcancel b st)))).
Proof.
  assert (S : forall st0, exists c o x s b,
    st0 = set_C c (set_out o (set_exts x (set_state s (set_Tcancel b st0)))))
    by (intros st0; exists (p_C st0), (p_out st0), (p_exts st0), (p_state st0), (p_Tcancel st0);
        now destruct st0).
  unfold after_drain. destruct a; try discriminate.
  - intros H. apply some_inj, pair_equal_spec in H as [<- _]. apply S.
  - destruct (p_lost st) as [[[]|]|]; destruct o; try discriminate;
      try (intros H; apply some_inj, pair_equal_spec in H as [<- _]; apply S);
      (destruct (fail_connection _ _ _ _) as [st2 e2] eqn:F; intros H;
       apply some_inj, pair_equal_spec in H as [<- _]; now apply fail_shape in F).
Qed.
Lemma start_ping_shape st by_ data st' e :
  start_ping X cfg st by_ data = (st', e) ->
  exists o x, st' = set_out o (set_exts x
    (set_pings (p_pings st ++ [(data, length (p_pongs st))]) (set_pongs (p_pongs st ++ [FPending]) st))).
Proof. unfold start_ping. cbv zeta. intros H. apply write_frame_shape in H. exact H. Qed.
Lemma receive_pong_shape st data :
  exists a b, receive_pong st data = set_pings a (set_pongs b st).
Proof.
  unfold receive_pong. destruct (has_ping st data).
  - destruct (acknowledge _ _ _) as [a b]. now exists a, b.
  - exists (p_pings st), (p_pongs st). now destruct st.
Qed.
Lemma connection_lost_shape st o c :
  exists r l p k b, connection_lost st o c =
    set_reader r (set_lost l (set_pongs p (set_close k (set_closing b (set_state Closed st))))).
Proof.
  unfold connection_lost. cbv zeta.
  change (p_close (set_state Closed (set_closing (p_closing st || c) st))) with (p_close st).
  assert (K : exists k, match p_close st with
      | Some _ => set_state Closed (set_closing (p_closing st || c) st)
      | None => set_close (Some (1006%Z, [])) (set_state Closed (set_closing (p_closing st || c) st))
      end = set_close k (set_closing (p_closing st || c) (set_state Closed st))).
  { destruct (p_close st) as [x|] eqn:Ec.
    - exists (Some x). rewrite <- Ec. now destruct st.
    - now exists (Some (1006%Z, [])). }
  destruct K as (k & ->).
  destruct (abort_futs _ _ _) as [p []].
  - now eexists _, (Some o), p, k, (p_closing st || c).
  - exists (p_reader st), (p_lost st), p, k, (p_closing st || c). now destruct st.
Qed.
Lemma T_raise_shape st e :
  exists t c o x s b, T_raise X cfg st e =
    set_T (TDone t) (set_C c (set_out o (set_exts x (set_state s (set_Tcancel b st))))).
Proof.
  unfold T_raise.
  assert (G : forall code, exists t c o x s b,
    (let '(st2, e') := fail_connection X cfg st code in set_T (TDone e') st2) =
    set_T (TDone t) (set_C c (set_out o (set_exts x (set_state s (set_Tcancel b st)))))).
  { intros code. destruct (fail_connection _ _ _ _) as [st2 e2] eqn:F.
    apply fail_shape in F as (c & o & x & s & b & ->). now exists e2, c, o, x, s, b. }
  destruct e; try apply G.
  exists None, (p_C st), (p_out st), (p_exts st), (p_state st), (p_Tcancel st). now destruct st.
Qed.
Lemma after_close_shape st c :
  exists t c' o x s b, after_close X cfg st c =
    set_T (TDone t) (set_C c' (set_out o (set_exts x (set_state s (set_Tcancel b st))))).
Proof.
  unfold after_close. destruct c; try apply T_raise_shape.
  exists None, (p_C st), (p_out st), (p_exts st), (p_state st), (p_Tcancel st). now destruct st.
Qed.
Lemma close_tcp_shape st e :
  exists c b, close_tcp cfg st e = set_C c (set_closing b st).
Proof.
  unfold close_tcp. destruct (_ && _); [exists (CDone e), (p_closing st); now destruct st|].
  destruct (is_lost _); eexists _, true; reflexivity.
Qed.
Lemma half_close_shape st :
  exists c b w, half_close cfg st = set_C c (set_closing b (set_eof_written w st)).
Proof.
  unfold half_close. destruct (c_can_write_eof cfg).
  - destruct (is_lost _).
    + destruct (close_tcp_shape (set_eof_written true st) None) as (c & b & ->). now exists c, b, true.
    + eexists _, (p_closing st), true. now destruct st.
  - destruct (close_tcp_shape st None) as (c & b & ->). exists c, b, (p_eof_written st). now destruct st.
Qed.
Lemma step_C_shape st a st' :
  step_C cfg st a = Some st' ->
  exists c b w k ab, st' = set_C c (set_closing b (set_eof_written w (set_Kcancel k (set_aborted ab st)))).
Proof.
  assert (S : forall c, exists c' b w k ab,
    set_C c st = set_C c' (set_closing b (set_eof_written w (set_Kcancel k (set_aborted ab st)))))
    by (intros c; exists c, (p_closing st), (p_eof_written st), (p_Kcancel st), (p_aborted st);
        now destruct st).
  assert (Sc : forall e, exists c' b w k ab,
    close_tcp cfg st e = set_C c' (set_closing b (set_eof_written w (set_Kcancel k (set_aborted ab st))))).
  { intros e. destruct (close_tcp_shape st e) as (c & b & ->).
    exists c, b, (p_eof_written st), (p_Kcancel st), (p_aborted st); now destruct st. }
  assert (Sh : exists c' b w k ab,
    half_close cfg st = set_C c' (set_closing b (set_eof_written w (set_Kcancel k (set_aborted ab st))))).
  { destruct (half_close_shape st) as (c & b & w & ->).
    exists c, b, w, (p_Kcancel st), (p_aborted st); now destruct st. }
  assert (Sa : exists c' b w k ab,
    after_transfer cfg st = set_C c' (set_closing b (set_eof_written w (set_Kcancel k (set_aborted ab st))))).
  { unfold after_transfer.
    set (st1 := match p_K st with KNone => st | _ => set_Kcancel true st end).
    assert (K : exists k, st1 = set_Kcancel k st).
    { unfold st1. destruct (p_K st); [exists (p_Kcancel st); now destruct st|..]; now exists true. }
    destruct K as (k & ->).
    destruct (_ && _); [destruct (is_lost _)|].
    - destruct (close_tcp_shape (set_Kcancel k st) None) as (c & b & ->).
      exists c, b, (p_eof_written st), k, (p_aborted st); now destruct st.
    - eexists _, (p_closing st), (p_eof_written st), k, (p_aborted st). now destruct st.
    - destruct (half_close_shape (set_Kcancel k st)) as (c & b & w & ->).
      exists c, b, w, k, (p_aborted st); now destruct st. }
  assert (Some_Sh : forall x, Some x = Some st' ->
    (exists c b w k ab, x = set_C c (set_closing b (set_eof_written w (set_Kcancel k (set_aborted ab st))))) ->
    exists c b w k ab, st' = set_C c (set_closing b (set_eof_written w (set_Kcancel k (set_aborted ab st))))).
  { intros x H. apply some_inj in H as ->. auto. }
  unfold step_C. intros H. destruct (p_C st); destruct a; try discriminate.
  - destruct (T_exists st); apply some_inj in H as <-; auto.
  - destruct (p_T st) as [| | | | | | |[e|]]; try discriminate; apply some_inj in H as <-; auto.
  - destruct (is_lost st); [|discriminate]. apply some_inj in H as <-; auto.
  - destruct (expired st d); [|discriminate]. destruct (is_lost st); apply some_inj in H as <-; auto.
  - destruct (is_lost st); [|discriminate]. apply some_inj in H as <-; auto.
  - destruct (expired st d); [|discriminate]. apply some_inj in H as <-; auto.
  - destruct (is_lost st); [|discriminate]. apply some_inj in H as <-; auto.
  - destruct (expired st d); [|discriminate]. destruct (is_lost st); apply some_inj in H as <-; auto.
    eexists _, true, (p_eof_written st), (p_Kcancel st), _. destruct st. reflexivity.
  - destruct (is_lost st); [|discriminate]. apply some_inj in H as <-; auto.
  - destruct (expired st d); [|discriminate]. apply some_inj in H as <-; auto.
Qed.
Lemma step_K_shape st a st' :
  step_K X cfg st a = Some st' ->
  exists k c o x s b pi po, st' =
    set_K k (set_C c (set_out o (set_exts x (set_state s (set_Tcancel b (set_pings pi (set_pongs po st))))))).
Proof.
  assert (S : forall k, exists k' c o x s b pi po, set_K k st =
    set_K k' (set_C c (set_out o (set_exts x (set_state s (set_Tcancel b (set_pings pi (set_pongs po st))))))))
    by (intros k; exists k, (p_C st), (p_out st), (p_exts st), (p_state st), (p_Tcancel st),
          (p_pings st), (p_pongs st); now destruct st).
  assert (Sf : forall k c o x s b, exists k' c' o' x' s' b' pi po,
    set_K k (set_C c (set_out o (set_exts x (set_state s (set_Tcancel b st))))) =
    set_K k' (set_C c' (set_out o' (set_exts x' (set_state s' (set_Tcancel b' (set_pings pi (set_pongs po st))))))))
    by (intros; exists k, c, o, x, s, b, (p_pings st), (p_pongs st); now destruct st).
  assert (Sp : forall st2 e r k, start_ping X cfg st ByKeepalive r = (st2, e) ->
    exists k' c' o' x' s' b' pi po, set_K k st2 =
    set_K k' (set_C c' (set_out o' (set_exts x' (set_state s' (set_Tcancel b' (set_pings pi (set_pongs po st)))))))).
  { intros st2 e r k H. apply start_ping_shape in H as (o & x & ->).
    eexists k, (p_C st), o, x, (p_state st), (p_Tcancel st), _, _. now destruct st. }
  unfold step_K. intros H.
  destruct (p_K st); try discriminate; (destruct (p_Kcancel st);
    [destruct a; try discriminate; apply some_inj in H as <-; auto|]).
  - destruct a; try discriminate. destruct (c_ping_interval cfg); apply some_inj in H as <-; auto.
  - destruct a; try discriminate. destruct (_ <=? _); [|discriminate].
    destruct (ensure_open st); [|apply some_inj in H as <-; auto|apply some_inj in H as <-; auto].
    destruct (random_ok st r); [|discriminate].
    destruct (start_ping _ _ _ _ _) as [st2 e] eqn:Q.
    destruct e; apply some_inj in H as <-; eapply Sp; eassumption.
  - destruct (after_drain X cfg st a) as [[st2 r]|] eqn:D; [|discriminate].
    apply after_drain_shape in D as (c & o & x & s & b & ->).
    destruct r; apply some_inj in H as <-; auto.
    unfold after_ping. destruct (find_ping _ _); [|auto]. destruct (c_ping_timeout cfg); auto.
  - destruct a; try discriminate. destruct (ensure_open_end st); [|discriminate].
    apply some_inj in H as <-; auto.
  - destruct a; try discriminate.
    + destruct (get_fut _ _); try discriminate; apply some_inj in H as <-; auto.
    + destruct (_ <=? _); [|discriminate].
      destruct (fail_connection _ _ _ _) as [st2 e2] eqn:F.
      apply fail_shape in F as (c & o & x & s & b & ->). apply some_inj in H as <-; auto.
Qed.
End Shapes.
