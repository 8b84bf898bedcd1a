(* What calls leave alone, and which steps change the tasks of the connection. *)
From Verif Require Import Base.Prelude Base.PreludeFacts Model.Streams Model.Frames
  Model.LegacyFraming Model.LegacyProtocol Proofs.LegacyShapes.
Local Open Scope N_scope.

Ltac shapes := repeat match goal with
  | H : fail_connection _ _ _ _ = (_, _) |- _ => apply fail_shape in H as (? & ? & ? & ? & ? & ->)
  | H : write_frame _ _ _ _ _ _ _ _ = (_, _) |- _ => apply write_frame_shape in H as (? & ? & ->)
  | H : write _ _ _ _ _ = (_, _) |- _ => apply write_shape in H as (? & ? & ->)
  | H : write_close_frame _ _ _ _ _ = (_, _) |- _ => apply write_close_frame_shape in H as (? & ? & ? & ->)
  | H : after_drain _ _ _ _ = Some (_, _) |- _ => apply after_drain_shape in H as (? & ? & ? & ? & ? & ->)
  | H : start_ping _ _ _ _ _ = (_, _) |- _ => apply start_ping_shape in H as (? & ? & ->)
  end.

Section Users.
Context {E : Type} (X : ext_ops E) (cfg : config).
Implicit Type st : conn E.

Definition still st st' : Prop :=
  p_T st' = p_T st /\ p_in st' = p_in st /\ p_close st' = p_close st /\ p_lost st' = p_lost st /\
  p_reader st' = p_reader st /\ p_now st' = p_now st /\ p_K st' = p_K st /\
  p_Kcancel st' = p_Kcancel st /\ p_closing st' = p_closing st /\
  p_eof_written st' = p_eof_written st /\ p_aborted st' = p_aborted st.

Lemma still_refl st : still st st. Proof. repeat split. Qed.
Lemma still_trans st st1 st2 : still st st1 -> still st1 st2 -> still st st2.
Proof.
  intros (A1 & A2 & A3 & A4 & A5 & A6 & A7 & A8 & A9 & A10 & A11)
    (B1 & B2 & B3 & B4 & B5 & B6 & B7 & B8 & B9 & B10 & B11).
  unfold still. repeat split; congruence.
Qed.
Ltac still := repeat split.

Lemma recv_loop_still st i : still st (recv_loop st i).
Proof.
  unfold recv_loop. destruct (p_messages st).
  - destruct (T_exists _); still.
  - change (p_put (set_messages l st)) with (p_put st). destruct (p_put st); [|still].
    destruct (set_result _ _); still.
Qed.
Lemma recv_resume_still st i w : still st (recv_resume cfg st i w).
Proof.
  unfold recv_resume. destruct (fut_done _).
  - eapply still_trans; [|apply recv_loop_still]. still.
  - destruct (c_legacy_recv cfg); [still|]. destruct (ensure_open _); [|still|still].
    eapply still_trans; [|apply recv_loop_still]. still.
Qed.
Lemma end_fragments_still st i r : still st (end_fragments st i r).
Proof. unfold end_fragments. destruct (p_frag st); [|still]. destruct (set_result _ _); still. Qed.
Lemma fail_still st code st' e : fail_connection X cfg st code = (st', e) -> still st st'.
Proof. intros H. shapes. still. Qed.
Lemma raise_fragments_still st i e : still st (raise_fragments X cfg st i e).
Proof.
  unfold raise_fragments.
  destruct (fail_connection X cfg st 1011) as [st2 e2] eqn:F. apply fail_still in F.
  destruct e; try (eapply still_trans; [exact F|apply end_fragments_still]).
  apply end_fragments_still.
Qed.
Lemma send_item_still st i op rest d : still st (send_item X cfg st i op rest d).
Proof.
  unfold send_item. destruct (prepare_data d) as [[op' data]|e]; [|apply raise_fragments_still].
  destruct (negb _); [apply raise_fragments_still|].
  destruct (write_frame _ _ _ _ _ _ _ _) as [st2 e] eqn:W. shapes. destruct e.
  - eapply still_trans; [|apply raise_fragments_still]. still.
  - still.
Qed.
Lemma send_last_still st i : still st (send_last X cfg st i).
Proof.
  unfold send_last.
  destruct (write_frame _ _ _ _ _ _ _ _) as [st2 e] eqn:W. shapes. destruct e.
  - eapply still_trans; [|apply raise_fragments_still]. still.
  - still.
Qed.
Lemma send_next_still st i op src : still st (send_next X cfg st i op src).
Proof.
  destruct src as [[|d items] [e|]|]; cbn [send_next];
    [apply raise_fragments_still|apply send_last_still|apply send_item_still|apply send_item_still|still].
Qed.
Lemma send_first_still st i rest d : still st (send_first X cfg st i rest d).
Proof.
  unfold send_first. destruct (prepare_data d) as [[op data]|e]; [|still].
  destruct (write_frame _ _ _ _ _ _ _ _) as [st2 e] eqn:W. shapes. destruct e.
  - eapply still_trans; [|apply raise_fragments_still]. still.
  - still.
Qed.
Lemma send_loop_still st i m : still st (send_loop X cfg st i m).
Proof.
  unfold send_loop. destruct (p_frag st); [still|].
  destruct m as [d| |[|d items] [e|]| |]; try (still; fail); try apply send_first_still.
  destruct (prepare_data d) as [[op data]|e]; [|still].
  destruct (write_frame _ _ _ _ _ _ _ _) as [st2 e] eqn:W. shapes. destruct e; still.
Qed.
Lemma close_wait_T_still st i t0 : still st (close_wait_T cfg st i t0).
Proof. unfold close_wait_T. destruct (T_exists st); still. Qed.
Lemma close_timed_out_still st i t0 : still st (close_timed_out X cfg st i t0).
Proof.
  unfold close_timed_out. destruct (fail_connection _ _ _ _) as [st2 e2] eqn:F. apply fail_still in F.
  eapply still_trans; [exact F|apply close_wait_T_still].
Qed.
Lemma close_start_still st i code reason : still st (close_start X cfg st i code reason).
Proof.
  unfold close_start. destruct (serialize_close _ _); [|still].
  assert (G : still st
     match write_close_frame X cfg st (ByCall i) a with
     | (st2, Some (Some e)) => raise_ i (PyExn e) st2
     | (st2, Some None) => set_user i (UCloseWrite (deadline st2 (c_close_timeout cfg)) (p_now st2)) st2
     | (st2, None) => close_wait_T cfg st2 i (p_now st2)
     end).
  { destruct (write_close_frame _ _ _ _ _) as [st2 r] eqn:W. shapes.
    destruct r as [[e|]|]; [still|still|]. eapply still_trans; [|apply close_wait_T_still]. still. }
  destruct (c_close_timeout cfg) as [[|q]|]; [apply close_timed_out_still|exact G|exact G].
Qed.
Lemma cancel_T_still st : still st (cancel_T st).
Proof. destruct (cancel_T_shape st) as (b & ->). still. Qed.
Lemma cancel_call_still st i pc : still st (cancel_call X cfg st i pc).
Proof.
  unfold cancel_call. destruct pc; try (still; fail); try apply raise_fragments_still.
  - destruct op; [apply raise_fragments_still|still].
  - eapply still_trans; [apply cancel_T_still|still].
Qed.

Ltac some_still H := apply some_inj in H as <-.

Lemma start_call_still st i c a st' : start_call X cfg st i c a = Some st' -> still st st'.
Proof.
  unfold start_call. intros H. destruct c; destruct a; try discriminate; try some_still H.
  - destruct (p_pop st); [still|apply recv_loop_still].
  - destruct (ensure_open st); [apply send_loop_still|still|still].
  - apply close_start_still.
  - destruct (ensure_open st); [|some_still H; still|some_still H; still]. destruct data as [d|].
    + destruct (prepare_ctrl d); [|some_still H; still].
      destruct (has_ping _ _); [some_still H; still|].
      destruct (start_ping _ _ _ _ _) as [st2 e] eqn:W. shapes. destruct e; some_still H; still.
    + destruct (random_ok _ _); [|discriminate].
      destruct (start_ping _ _ _ _ _) as [st2 e] eqn:W. shapes. destruct e; some_still H; still.
  - destruct (ensure_open st); [|still|still]. destruct (prepare_ctrl data); [|still].
    destruct (write_frame _ _ _ _ _ _ _ _) as [st2 e] eqn:W. shapes. destruct e; still.
  - still.
Qed.

Lemma step_call_still st i pc a st' : step_call X cfg st i pc a = Some st' -> still st st'.
Proof.
  assert (D : forall (k1 : conn E -> conn E) (k2 : conn E -> pexn -> conn E) (k3 : conn E -> conn E),
    (forall s, still s (k1 s)) -> (forall s e, still s (k2 s e)) -> (forall s, still s (k3 s)) ->
    match after_drain X cfg st a with
    | Some (s2, EOk) => Some (k1 s2)
    | Some (s2, ERaise e) => Some (k2 s2 e)
    | Some (s2, EWait) => Some (k3 s2)
    | None => None
    end = Some st' -> still st st').
  { intros k1 k2 k3 H1 H2 H3 H. destruct (after_drain _ _ _ _) as [[s2 r]|] eqn:Q; [|discriminate].
    apply after_drain_shape in Q as (? & ? & ? & ? & ? & ->).
    destruct r; some_still H; (eapply still_trans; [|first [apply H1|apply H2|apply H3]]); still. }
  unfold step_call. intros H. destruct pc.
  - eapply start_call_still; eassumption.
  - destruct a; try discriminate. destruct (_ || _); [|discriminate]. some_still H. apply recv_resume_still.
  - destruct a; try discriminate. destruct (fut_done _); [|discriminate]. some_still H. apply send_loop_still.
  - destruct a; try discriminate. destruct (ensure_open_end st); [|discriminate]. some_still H. still.
  - eapply (D (fun s => return_ i RNone s) (fun s e => raise_ i e s) (fun s => set_user i UEnsure s));
      [still|still|still|exact H].
  - eapply (D (fun s => send_next X cfg s i op rest) (fun s e => raise_fragments X cfg s i e)
             (fun s => set_user i UFragEnsure s));
      [intros; apply send_next_still|intros; apply raise_fragments_still|still|exact H].
  - eapply (D (fun s => end_fragments s i RNone) (fun s e => raise_fragments X cfg s i e)
             (fun s => set_user i UFragEnsure s));
      [intros; apply end_fragments_still|intros; apply raise_fragments_still|still|exact H].
  - destruct a; try discriminate. destruct (ensure_open_end st); [|discriminate]. some_still H.
    apply raise_fragments_still.
  - destruct op; destruct a as [| | | | |[]]; try discriminate; some_still H;
      first [apply send_item_still|apply send_last_still|apply raise_fragments_still
            |apply send_first_still|still].
  - eapply (D (fun s => match find_ping s data with
                        | Some w => return_ i (RPing w) s
                        | None => raise_ i (PyExn KeyError) s end) (fun s e => raise_ i e s)
              (fun s => set_user i UEnsure s)); [intros; destruct (find_ping s data); still|still|still|exact H].
  - assert (G : match after_drain X cfg st a with
                | Some (st, EOk) => Some (close_wait_T cfg st i t0)
                | Some (st, ERaise e) => Some (raise_ i e st)
                | Some (st, EWait) => Some (set_user i (UCloseEnsure d t0) st)
                | None => None
                end = Some st' -> still st st').
    { apply (D (fun s => close_wait_T cfg s i t0) (fun s e => raise_ i e s)
             (fun s => set_user i (UCloseEnsure d t0) s)); [intros; apply close_wait_T_still|still|still]. }
    destruct a; try (now apply G). destruct (expired st d); [|discriminate]. some_still H.
    apply close_timed_out_still.
  - destruct a; try discriminate.
    + destruct (ensure_open_end st); [|discriminate]. some_still H. still.
    + destruct (expired st d); [|discriminate]. some_still H. apply close_timed_out_still.
  - destruct a; try discriminate.
    + destruct (p_T st) as [| | | | | | |[e|]] eqn:HT; try discriminate; some_still H; still.
    + destruct (expired st d); [|discriminate]. some_still H.
      eapply still_trans; [apply cancel_T_still|still].
  - destruct a; try discriminate. destruct (T_done st); [|discriminate]. some_still H. still.
  - destruct a; try discriminate.
    destruct (p_C st) as [| | | | | | |[e|]]; try discriminate; some_still H; still.
  - destruct a; try discriminate. destruct (is_lost st); [|discriminate]. some_still H. still.
  - discriminate.
Qed.
Lemma step_user_still st i a st' : step_user X cfg st i a = Some st' -> still st st'.
Proof.
  unfold step_user. destruct (nth_error _ _) as [[pc c]|]; [|discriminate].
  assert (G : step_call X cfg st i pc a = Some st' -> still st st') by apply step_call_still.
  assert (G' : match a with Go => Some (cancel_call X cfg st i pc) | _ => None end = Some st' ->
               still st st').
  { destruct a; try discriminate. intros H'. apply some_inj in H' as <-. apply cancel_call_still. }
  destruct c; destruct pc; try discriminate; auto.
Qed.

(* Only transfer_data itself changes its progress, reads frames or changes the messages it's given *)
Lemma step_T_alone st l st' :
  step X cfg st l = Some st' -> (forall a, l <> LT a) -> l <> LOpen ->
  p_T st' = p_T st /\ p_in st' = p_in st.
Proof.
  intros H N1 N2. destruct l; cbn [step] in H; try congruence.
  - destruct (fail_connection _ _ _ _) as [st2 e2] eqn:F. some_still H. shapes. still.
  - destruct (r_eof _); [discriminate|]. some_still H. still.
  - destruct (r_eof _); [discriminate|]. some_still H. still.
  - destruct (p_state st); try discriminate; some_still H;
      destruct (connection_lost_shape st o closing) as (? & ? & ? & ? & ? & ->); still.
  - some_still H. still.
  - some_still H. still.
  - some_still H. still.
  - destruct (nth_error _ _) as [[[] ?]|]; try discriminate; some_still H; still.
  - apply step_K_shape in H as (? & ? & ? & ? & ? & ? & ? & ? & ->). still.
  - apply step_C_shape in H as (? & ? & ? & ? & ? & ->). still.
  - apply step_user_still in H as (H1 & H2 & _). now split.
Qed.
End Users.
