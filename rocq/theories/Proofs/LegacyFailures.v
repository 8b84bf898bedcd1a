(* What may make a connection fail when the peer follows the protocol. *)
From Verif Require Import Base.Prelude Base.PreludeFacts Model.Streams Model.Frames
  Model.LegacyFraming Model.LegacyProtocol Spec.Messages Spec.Asyncio
  Proofs.LegacyShapes Proofs.LegacyUsers Proofs.LegacyFields Proofs.LegacyClose Proofs.LegacyCloseOrigin.
Local Open Scope N_scope.

Section Late.
Context {E : Type} (X : ext_ops E) (cfg : config).
Implicit Type st : conn E.
Definition CT st : Prop := late (p_T st) -> (2 <= rank (p_state st))%nat.

Lemma T_raise_not_late st e : ~ late (p_T (T_raise X cfg st e)).
Proof.
  unfold T_raise. assert (G : ~ late (p_T (let '(st2, e') := fail_connection X cfg st (fail_code e) in set_T (TDone e') st2))).
  { destruct (fail_connection _ _ _ _) as [st2 e2]. intros []. }
  destruct e; try exact G. intros [].
Qed.
Lemma after_close_not_late st c : ~ late (p_T (after_close X cfg st c)).
Proof. unfold after_close. destruct c; try apply T_raise_not_late. intros []. Qed.
Lemma put_message_not_late st m : ~ late (p_T (put_message X cfg st m)).
Proof.
  unfold put_message. destruct (room cfg st); [|intros []].
  destruct (p_pop _); [|intros []]. destruct (set_result _ _); [intros []|]. apply T_raise_not_late.
Qed.
Lemma wait_closing st : T_done st = false -> ensure_open st = EWait -> (2 <= rank (p_state st))%nat \/ p_state st = Connecting.
Proof.
  unfold ensure_open. intros ->. destruct (p_state st); cbn [rank]; intros H; try discriminate; auto; left; lia.
Qed.
Lemma on_frame_late st c f : T_done st = false -> late (p_T (on_frame X cfg st c f)) ->
  (2 <= rank (p_state (on_frame X cfg st c f)))%nat \/ p_state (on_frame X cfg st c f) = Connecting.
Proof.
  intros Nd. unfold on_frame.
  assert (D : late (p_T match read_message cfg c f with
         | RMsg m => put_message X cfg st m
         | RNext c => set_T (TRead c) st
         | RExn e => T_raise X cfg st (PyExn e)
         end) -> False).
  { destruct (read_message _ _ _); [apply put_message_not_late|intros []|apply T_raise_not_late]. }
  destruct (f_opcode f); try (intros Q; now apply D in Q).
  - destruct (parse_close _) as [k|]; [|intros Q; now apply T_raise_not_late in Q].
    unfold write_close_frame. cbn [set_close p_state]. destruct (is_open (p_state st)).
    + destruct (write_frame _ _ _ _ _ _ _ _) as [st2 [e2|]] eqn:W; [intros Q; now apply T_raise_not_late in Q|].
      intros _. apply write_frame_shape in W as (? & ? & ->). left. cbn [set_T set_out set_exts set_state p_state rank]. lia.
    + intros Q; now apply after_close_not_late in Q.
  - destruct (ensure_open _) eqn:Eo; [|intros Q; now apply T_raise_not_late in Q|intros _; exact (wait_closing _ Nd Eo)].
    destruct (write_frame _ _ _ _ _ _ _ _) as [st2 [e2|]]; [intros Q; now apply T_raise_not_late in Q|intros []].
  - intros [].
Qed.
Lemma step_T_late st a st' : step_T X cfg st a = Some st' -> late (p_T st') ->
  (2 <= rank (p_state st'))%nat \/ p_state st' = Connecting.
Proof.
  intros H. unfold step_T in H.
  assert (W : T_done st = false -> forall st2 r, after_drain X cfg st a = Some (st2, r) -> r = EWait -> (2 <= rank (p_state st2))%nat \/ p_state st2 = Connecting).
  { intros Nd st2 r. unfold after_drain. destruct a; try discriminate.
    { intros Q; apply some_inj, pair_equal_spec in Q as [<- <-]. discriminate. }
    destruct (p_lost st) as [l|]; [|discriminate].
    assert (G : (let '(st2, _) := fail_connection X cfg st 1006 in Some (st2, ensure_open st2)) = Some (st2, r) ->
      r = EWait -> (2 <= rank (p_state st2))%nat \/ p_state st2 = Connecting).
    { destruct (fail_connection _ _ _ _) as [s2 e2] eqn:F. intros Q. apply some_inj, pair_equal_spec in Q as [<- <-]. apply wait_closing.
      apply fail_shape in F as (? & ? & ? & ? & ? & ->). exact Nd. }
    destruct l as [[]|]; destruct o; try discriminate; try exact G;
      intros Q; apply some_inj, pair_equal_spec in Q as [<- <-]; discriminate. }
  destruct (p_T st) as [|c|c|c|c|c|m w|e] eqn:HT; try discriminate; (destruct (p_Tcancel st);
    [destruct a; try discriminate; apply some_inj in H as <-; intros Q; now apply T_raise_not_late in Q|]).
  - destruct a; try discriminate. unfold read_frame in H.
    assert (G : match run (legacy_read X (negb (c_client cfg)) (read_limit cfg c)) (p_reader st) (p_exts st) with
        | OSusp _ _ _ => None
        | OFail e r exts => Some (T_raise X cfg (set_reader r (set_exts exts st)) (PyExn e))
        | ODone f r exts =>
          let st := set_in (p_in st ++ [f]) (set_reader r (set_exts exts st)) in
          Some (on_frame X cfg st c f)
        end = Some st' -> late (p_T st') -> (2 <= rank (p_state st'))%nat \/ p_state st' = Connecting).
    { clear H. destruct (run _ _ _) as [? ? ?|f r ex|e r ex]; cbv zeta; try discriminate; intros H;
        apply some_inj in H as <-; [apply on_frame_late; unfold T_done; cbn [set_in set_reader set_exts p_T]; now rewrite HT|intros Q; now apply T_raise_not_late in Q]. }
    destruct (p_lost st) as [[o|]|] eqn:L; [|now apply G|now apply G].
    apply some_inj in H as <-. intros Q; now apply T_raise_not_late in Q.
  - destruct (after_drain X cfg st a) as [[st2 r]|] eqn:D; [|discriminate].
    destruct r; apply some_inj in H as <-; [intros []|intros Q; now apply T_raise_not_late in Q|].
    intros _. refine (W _ _ _ eq_refl eq_refl). unfold T_done. now rewrite HT.
  - destruct a; try discriminate. destruct (ensure_open_end st); [|discriminate].
    apply some_inj in H as <-. intros Q; now apply T_raise_not_late in Q.
  - destruct (after_drain X cfg st a) as [[st2 r]|] eqn:D; [|discriminate].
    destruct r; apply some_inj in H as <-; [intros Q; now apply after_close_not_late in Q|
      destruct (is_closed_exn e); intros Q; [now apply after_close_not_late in Q|now apply T_raise_not_late in Q]|].
    intros _. refine (W _ _ _ eq_refl eq_refl). unfold T_done. now rewrite HT.
  - destruct a; try discriminate. destruct (ensure_open_end st); [|discriminate].
    apply some_inj in H as <-. destruct (is_closed_exn p); intros Q; [now apply after_close_not_late in Q|now apply T_raise_not_late in Q].
  - destruct a; try discriminate. destruct (fut_done _); [|discriminate]. apply some_inj in H as <-.
    intros Q; now apply put_message_not_late in Q.
Qed.
Lemma CT_step st l st' : Base st -> CT st -> step X cfg st l = Some st' -> CT st'.
Proof.
  intros B C H. pose proof (Base_step X cfg _ _ _ B H) as (_ & _ & _ & S1). pose proof (rank_step X cfg _ _ _ H) as R.
  assert (N : late (p_T st') -> p_state st' = Connecting -> False).
  { intros L Q. destruct (p_T st') eqn:T; try contradiction L; (assert (Nn : p_T st' <> TNone) by (rewrite T; discriminate); exact (S1 Nn Q)). }
  assert (D : (forall a, l <> LT a) -> l <> LOpen -> CT st').
  { intros N1 N2 L. destruct (step_T_alone X cfg st l st' H N1 N2) as [Q _]. rewrite Q in L. specialize (C L). lia. }
  destruct l; try (apply D; [intros ?; discriminate|discriminate]).
  - cbn [step] in H. destruct (p_state st); try discriminate.
    destruct (p_C st); try discriminate. apply some_inj in H as <-. intros [].
  - cbn [step] in H. intros L. destruct (step_T_late _ _ _ H L) as [Q|Q]; [exact Q|destruct (N L Q)].
Qed.
Lemma CT_exec exts ls st : exec X cfg (initial exts) ls = Some st -> CT st.
Proof.
  intros H. enough (G : Base st /\ CT st) by apply G. revert H.
  apply (exec_steps X cfg (fun st => Base st /\ CT st)).
  - intros st1 l st2 [B C] S. split; [exact (Base_step X cfg _ _ _ B S)|exact (CT_step _ _ _ B C S)].
  - split; [apply Base_initial|intros []].
Qed.
Lemma CT_closed st : CT st -> late (p_T st) -> closed_state st.
Proof. intros C L. specialize (C L). unfold closed_state. destruct (p_state st); cbn [rank] in C; try reflexivity; lia. Qed.
End Late.
