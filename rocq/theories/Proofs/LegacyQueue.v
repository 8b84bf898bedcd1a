(* Messages in the asyncio connection: from frames to the queue, from the queue to recv(). *)
From Verif Require Import Base.Prelude Base.PreludeFacts Base.Utf8 Base.Utf8Facts Model.Streams Model.Frames
  Model.LegacyFraming Model.LegacyProtocol Spec.Utf8Spec Spec.Messages Spec.Asyncio
  Proofs.Utf8SpecFacts
  Proofs.LegacyPrims Proofs.LegacyFields Proofs.LegacyShapes Proofs.LegacyUsers Proofs.LegacyClose.
Local Open Scope N_scope.

Section Queue.
Context {E : Type} (X : ext_ops E) (cfg : config).
Implicit Type st : conn E.

(** Calls *)

Definition qf st st' : Prop :=
  p_users st' = p_users st /\ p_messages st' = p_messages st /\ p_delivered st' = p_delivered st /\
  p_put st' = p_put st /\ p_puts st' = p_puts st /\ p_pop st' = p_pop st /\ p_pops st' = p_pops st.
Definition no_message (pc : upc) : Prop := forall m, pc <> UDone (RMessage m).
(* neither starting, nor waiting for a message, nor returning one *)
Definition no_recv (pc : upc) : Prop :=
  match pc with UDone (RMessage _) | URecvWait _ | UStart _ => False | _ => True end.
Lemma no_recv_message pc : no_recv pc -> no_message pc.
Proof. intros H m ->. exact H. Qed.
Definition sameq (i : nat) st st' : Prop :=
  (exists pc, p_users st' = replace i (pc, false) (p_users st) /\ no_recv pc) /\
  p_messages st' = p_messages st /\ p_delivered st' = p_delivered st /\
  p_put st' = p_put st /\ p_puts st' = p_puts st /\ p_pop st' = p_pop st /\ p_pops st' = p_pops st.

Lemma qf_sameq i st st1 st' : qf st st1 -> sameq i st1 st' -> sameq i st st'.
Proof.
  intros (A1 & A2 & A3 & A4 & A5 & A6 & A7) (B1 & B2 & B3 & B4 & B5 & B6 & B7).
  unfold sameq. rewrite A1 in B1. split; [exact B1|]. repeat split; congruence.
Qed.
Ltac qf := repeat split.
Lemma sameq_set i pc st : no_recv pc -> sameq i st (set_user i pc st).
Proof. intros N. split; [|qf]. now exists pc. Qed.
Lemma sameq_raise i e st : sameq i st (raise_ i e st).
Proof. now apply sameq_set. Qed.
Ltac sq := apply sameq_set; exact Logic.I.
Lemma fail_qf st code st' e : fail_connection X cfg st code = (st', e) -> qf st st'.
Proof. intros H. shapes. qf. Qed.

Lemma end_fragments_sameq i st r : (forall m, r <> RMessage m) -> sameq i st (end_fragments st i r).
Proof.
  intros N. unfold end_fragments. destruct (p_frag st); [|apply sameq_raise].
  destruct (set_result _ _); [|apply sameq_raise].
  eapply qf_sameq; [|apply sameq_set; destruct r; try exact Logic.I; now apply (N m)]. qf.
Qed.
Lemma raise_fragments_sameq i st e : sameq i st (raise_fragments X cfg st i e).
Proof.
  unfold raise_fragments.
  destruct (fail_connection X cfg st 1011) as [st2 e2] eqn:F. apply fail_qf in F.
  destruct e; try (eapply qf_sameq; [exact F|apply end_fragments_sameq; discriminate]).
  apply end_fragments_sameq; discriminate.
Qed.
Lemma send_item_sameq st i op rest d : sameq i st (send_item X cfg st i op rest d).
Proof.
  unfold send_item. destruct (prepare_data d) as [[op' data]|e]; [|apply raise_fragments_sameq].
  destruct (negb _); [apply raise_fragments_sameq|].
  destruct (write_frame _ _ _ _ _ _ _ _) as [st2 e] eqn:W. shapes. destruct e.
  - eapply qf_sameq; [|apply raise_fragments_sameq]. qf.
  - eapply qf_sameq; [|sq]. qf.
Qed.
Lemma send_last_sameq st i : sameq i st (send_last X cfg st i).
Proof.
  unfold send_last.
  destruct (write_frame _ _ _ _ _ _ _ _) as [st2 e] eqn:W. shapes. destruct e.
  - eapply qf_sameq; [|apply raise_fragments_sameq]. qf.
  - eapply qf_sameq; [|sq]. qf.
Qed.
Lemma send_next_sameq st i op src : sameq i st (send_next X cfg st i op src).
Proof.
  destruct src as [[|d items] [e|]|]; cbn [send_next];
    [apply raise_fragments_sameq|apply send_last_sameq|apply send_item_sameq|apply send_item_sameq|sq].
Qed.
Lemma send_first_sameq st i rest d : sameq i st (send_first X cfg st i rest d).
Proof.
  unfold send_first. destruct (prepare_data d) as [[op data]|e]; [|apply sameq_raise].
  destruct (write_frame _ _ _ _ _ _ _ _) as [st2 e] eqn:W. shapes. destruct e.
  - eapply qf_sameq; [|apply raise_fragments_sameq]. qf.
  - eapply qf_sameq; [|sq]. qf.
Qed.
Lemma send_loop_sameq st i m : sameq i st (send_loop X cfg st i m).
Proof.
  unfold send_loop. destruct (p_frag st); [sq|].
  destruct m as [d| |[|d items] [e|]| |]; try apply sameq_raise; try (sq; fail); try apply send_first_sameq.
  destruct (prepare_data d) as [[op data]|e]; [|apply sameq_raise].
  destruct (write_frame _ _ _ _ _ _ _ _) as [st2 e] eqn:W. shapes.
  destruct e; (eapply qf_sameq; [|sq]); qf.
Qed.
Lemma close_wait_T_sameq st i t0 : sameq i st (close_wait_T cfg st i t0).
Proof. unfold close_wait_T. destruct (T_exists st); sq. Qed.
Lemma close_timed_out_sameq st i t0 : sameq i st (close_timed_out X cfg st i t0).
Proof.
  unfold close_timed_out. destruct (fail_connection _ _ _ _) as [st2 e2] eqn:F. apply fail_qf in F.
  eapply qf_sameq; [exact F|apply close_wait_T_sameq].
Qed.
Lemma close_start_sameq st i code reason : sameq i st (close_start X cfg st i code reason).
Proof.
  unfold close_start. destruct (serialize_close _ _); [|apply sameq_raise].
  assert (G : sameq i st
     match write_close_frame X cfg st (ByCall i) a with
     | (st2, Some (Some e)) => raise_ i (PyExn e) st2
     | (st2, Some None) => set_user i (UCloseWrite (deadline st2 (c_close_timeout cfg)) (p_now st2)) st2
     | (st2, None) => close_wait_T cfg st2 i (p_now st2)
     end).
  { destruct (write_close_frame _ _ _ _ _) as [st2 r] eqn:W. shapes.
    destruct r as [[e|]|]; (eapply qf_sameq; [|first [apply close_wait_T_sameq|sq]]); qf. }
  destruct (c_close_timeout cfg) as [[|q]|]; [apply close_timed_out_sameq|exact G|exact G].
Qed.
Lemma cancel_T_qf st : qf st (cancel_T st).
Proof. destruct (cancel_T_shape st) as (b & ->). qf. Qed.

(* What a step of the i-th call does with messages *)
Definition Waiters st : Prop :=
  (forall w, p_put st = Some w -> pending (p_puts st) w) /\
  (forall w, p_pop st = Some w -> pending (p_pops st) w).
Inductive uq (i : nat) st st' : Prop :=
| uq_same pc : Waiters st' -> p_messages st' = p_messages st -> p_delivered st' = p_delivered st ->
    p_users st' = replace i (pc, false) (p_users st) -> no_message pc ->
    p_put st' = p_put st \/ p_put st' = None -> uq i st st'
| uq_recv m : Waiters st' -> p_messages st = m :: p_messages st' ->
    p_delivered st' = p_delivered st ++ [(i, m)] ->
    p_users st' = replace i (UDone (RMessage m), false) (p_users st) ->
    p_put st' = p_put st \/ p_put st' = None -> uq i st st'.

Lemma sameq_uq i st st' : Waiters st -> sameq i st st' -> uq i st st'.
Proof.
  intros [W1 W2] ((pc & A1 & A2) & A3 & A4 & A5 & A6 & A7 & A8).
  apply (uq_same i st st' pc); auto using no_recv_message. unfold Waiters. rewrite A5, A6, A7, A8. now split.
Qed.

Lemma pending_app futs w x : pending futs w -> pending (futs ++ [x]) w.
Proof. unfold pending. intros H. rewrite nth_error_app1; [exact H|]. eapply pending_lt, H. Qed.
Lemma pending_new futs : pending (futs ++ [FPending]) (length futs).
Proof. unfold pending. rewrite nth_error_app2, Nat.sub_diag by lia. reflexivity. Qed.
Lemma set_result_pending futs w : pending futs w -> set_result w futs = Some (replace w FResult futs).
Proof. intros H. unfold set_result. now rewrite (get_fut_pending _ _ H). Qed.

Lemma recv_loop_uq i st : Waiters st -> p_pop st = None -> uq i st (recv_loop st i).
Proof.
  intros [W1 W2] Hp. unfold recv_loop. destruct (p_messages st) as [|m rest] eqn:Em.
  - destruct (T_exists _).
    + apply (uq_same i _ _ (URecvWait (length (p_pops st)))); try reflexivity; try discriminate; [|now left].
      split; [exact W1|]. intros w H. apply some_inj in H as <-. apply pending_new.
    + apply (uq_same i _ _ (UDone (RRaise (PyExn AttributeError)))); try reflexivity; try discriminate; [|now left].
      split; [exact W1|]. discriminate.
  - change (p_put (set_messages rest st)) with (p_put st).
    destruct (p_put st) as [w|] eqn:Eput.
    + change (p_puts (set_messages rest st)) with (p_puts st).
      rewrite (set_result_pending _ _ (W1 w eq_refl)).
      apply (uq_recv i _ _ m); try reflexivity; [|exact Em|now right].
      split; [discriminate|]. exact W2.
    + apply (uq_recv i _ _ m); try reflexivity; [|exact Em|now left].
      split; [|exact W2]. cbn [p_put return_ set_user set_users set_delivered set_messages].
      rewrite Eput. discriminate.
Qed.
Lemma uq_pop_none i st st' : uq i (set_pop None st) st' -> uq i st st'.
Proof. intros [pc ? ? ? ? ? ?|m ? ? ? ? ?]; [now apply (uq_same i _ _ pc)|now apply (uq_recv i _ _ m)]. Qed.
Lemma recv_resume_uq i st w : Waiters st -> uq i st (recv_resume cfg st i w).
Proof.
  intros W. apply uq_pop_none. unfold recv_resume.
  assert (W' : Waiters (set_pop None st)) by (split; [apply W|discriminate]).
  destruct (fut_done _); [now apply recv_loop_uq|].
  destruct (c_legacy_recv cfg); [apply sameq_uq; [exact W'|sq]|].
  destruct (ensure_open _); [now apply recv_loop_uq| |]; (apply sameq_uq; [exact W'|sq]).
Qed.
Lemma cancel_call_sameq i st pc : (forall w, pc <> URecvWait w) -> sameq i st (cancel_call X cfg st i pc).
Proof.
  intros W. unfold cancel_call.
  destruct pc; try first [sq|apply raise_fragments_sameq].
  - now contradiction (W w).
  - destruct op; first [sq|apply raise_fragments_sameq].
  - eapply qf_sameq; [apply cancel_T_qf|sq].
Qed.
Lemma cancel_call_uq i st pc : Waiters st -> uq i st (cancel_call X cfg st i pc).
Proof.
  intros W. destruct pc as [|w| | | | | | | | | | | | | | |];
    try (apply sameq_uq; [exact W|apply cancel_call_sameq; discriminate]).
  apply uq_pop_none. apply sameq_uq; [|sq]. split; [apply W|discriminate].
Qed.
Lemma start_call_sameq st i c a st' :
  c <> CallRecv -> start_call X cfg st i c a = Some st' -> sameq i st st'.
Proof.
  intros W H. assert (S : sameq i st st' -> sameq i st st') by exact (fun x => x).
  unfold start_call in H. destruct c; destruct a; try discriminate; try (apply some_inj in H as <-).
  - contradiction.
  - apply S. destruct (ensure_open st); [apply send_loop_sameq|sq|sq].
  - apply S, close_start_sameq.
  - apply S. destruct (ensure_open st); [|apply some_inj in H as <-; sq|apply some_inj in H as <-; sq].
    destruct data as [d|].
    + destruct (prepare_ctrl d); [|apply some_inj in H as <-; sq].
      destruct (has_ping _ _); [apply some_inj in H as <-; sq|].
      destruct (start_ping _ _ _ _ _) as [st2 e] eqn:Q. shapes.
      destruct e; apply some_inj in H as <-; (eapply qf_sameq; [|sq]); qf.
    + destruct (random_ok _ _); [|discriminate].
      destruct (start_ping _ _ _ _ _) as [st2 e] eqn:Q. shapes.
      destruct e; apply some_inj in H as <-; (eapply qf_sameq; [|sq]); qf.
  - apply S. destruct (ensure_open st); [|sq|sq]. destruct (prepare_ctrl data); [|sq].
    destruct (write_frame _ _ _ _ _ _ _ _) as [st2 e] eqn:Q. shapes.
    destruct e; (eapply qf_sameq; [|sq]); qf.
  - apply S; sq.
Qed.

Lemma start_call_uq st i c a st' :
  Waiters st -> start_call X cfg st i c a = Some st' -> uq i st st'.
Proof.
  intros W H. destruct c; try (apply sameq_uq; [exact W|]; eapply start_call_sameq; [|exact H]; discriminate).
  unfold start_call in H. destruct a; try discriminate. apply some_inj in H as <-.
  destruct (p_pop st) eqn:Ep; [apply sameq_uq; [exact W|sq]|now apply recv_loop_uq].
Qed.

Lemma step_call_sameq st i pc a st' :
  pc <> UStart CallRecv -> (forall w, pc <> URecvWait w) ->
  step_call X cfg st i pc a = Some st' -> sameq i st st'.
Proof.
  intros W W'. assert (S : sameq i st st' -> sameq i st st') by exact (fun x => x).
  assert (D : forall (k1 : conn E -> conn E) (k2 : conn E -> pexn -> conn E) (k3 : conn E -> conn E),
    (forall s, sameq i s (k1 s)) -> (forall s e, sameq i s (k2 s e)) -> (forall s, sameq i s (k3 s)) ->
    match after_drain X cfg st a with
    | Some (s2, EOk) => Some (k1 s2)
    | Some (s2, ERaise e) => Some (k2 s2 e)
    | Some (s2, EWait) => Some (k3 s2)
    | None => None
    end = Some st' -> sameq i st st').
  { intros k1 k2 k3 H1 H2 H3 H. apply S.
    destruct (after_drain _ _ _ _) as [[s2 r]|] eqn:Q; [|discriminate].
    apply after_drain_shape in Q as (? & ? & ? & ? & ? & ->).
    destruct r; apply some_inj in H as <-;
      (eapply qf_sameq; [|first [apply H1|apply H2|apply H3]]); qf. }
  unfold step_call. intros H. destruct pc.
  - eapply start_call_sameq; [|exact H]. congruence.
  - now contradiction (W' w).
  - destruct a; try discriminate. destruct (fut_done _); [|discriminate]. apply some_inj in H as <-.
    apply S, send_loop_sameq.
  - destruct a; try discriminate. destruct (ensure_open_end st); [|discriminate].
    apply some_inj in H as <-. apply S; sq.
  - eapply (D (fun s => return_ i RNone s) (fun s e => raise_ i e s) (fun s => set_user i UEnsure s));
      [intros; sq|intros; sq|intros; sq|exact H].
  - eapply (D (fun s => send_next X cfg s i op rest) (fun s e => raise_fragments X cfg s i e)
             (fun s => set_user i UFragEnsure s));
      [intros; apply send_next_sameq|intros; apply raise_fragments_sameq|intros; sq|exact H].
  - eapply (D (fun s => end_fragments s i RNone) (fun s e => raise_fragments X cfg s i e)
             (fun s => set_user i UFragEnsure s));
      [intros; now apply end_fragments_sameq|intros; apply raise_fragments_sameq|intros; sq|exact H].
  - destruct a; try discriminate. destruct (ensure_open_end st); [|discriminate].
    apply some_inj in H as <-. apply S, raise_fragments_sameq.
  - destruct op; destruct a as [| | | | |[]]; try discriminate; apply some_inj in H as <-; apply S;
      first [apply send_item_sameq|apply send_last_sameq|apply raise_fragments_sameq
            |apply send_first_sameq|sq].
  - eapply (D (fun s => match find_ping s data with
                        | Some w => return_ i (RPing w) s
                        | None => raise_ i (PyExn KeyError) s end) (fun s e => raise_ i e s)
              (fun s => set_user i UEnsure s)); [intros; destruct (find_ping s data); sq|intros; sq|intros; sq|exact H].
  - assert (G : match after_drain X cfg st a with
                | Some (st, EOk) => Some (close_wait_T cfg st i t0)
                | Some (st, ERaise e) => Some (raise_ i e st)
                | Some (st, EWait) => Some (set_user i (UCloseEnsure d t0) st)
                | None => None
                end = Some st' -> sameq i st st').
    { apply (D (fun s => close_wait_T cfg s i t0) (fun s e => raise_ i e s)
             (fun s => set_user i (UCloseEnsure d t0) s)); [intros; apply close_wait_T_sameq|intros; sq|intros; sq]. }
    destruct a; try (now apply G). destruct (expired st d); [|discriminate]. apply some_inj in H as <-.
    apply S, close_timed_out_sameq.
  - destruct a; try discriminate.
    + destruct (ensure_open_end st); [|discriminate]. apply some_inj in H as <-. apply S; sq.
    + destruct (expired st d); [|discriminate]. apply some_inj in H as <-. apply S, close_timed_out_sameq.
  - destruct a; try discriminate.
    + destruct (p_T st) as [| | | | | | |[e|]] eqn:HT; try discriminate; apply some_inj in H as <-; apply S; sq.
    + destruct (expired st d); [|discriminate]. apply some_inj in H as <-.
      apply S. eapply qf_sameq; [apply cancel_T_qf|sq].
  - destruct a; try discriminate. destruct (T_done st); [|discriminate]. apply some_inj in H as <-. apply S; sq.
  - destruct a; try discriminate.
    destruct (p_C st) as [| | | | | | |[e|]]; try discriminate; apply some_inj in H as <-; apply S; sq.
  - destruct a; try discriminate. destruct (is_lost st); [|discriminate]. apply some_inj in H as <-. apply S; sq.
  - discriminate.
Qed.
Lemma step_call_uq st i pc a st' :
  Waiters st -> step_call X cfg st i pc a = Some st' -> uq i st st'.
Proof.
  intros W H. destruct pc as [c|w| | | | | | | | | | | | | | |];
    try (apply sameq_uq; [exact W|]; eapply step_call_sameq; [| |exact H]; discriminate).
  - eapply start_call_uq; eassumption.
  - unfold step_call in H. destruct a; try discriminate. destruct (_ || _); [|discriminate].
    apply some_inj in H as <-. now apply recv_resume_uq.
Qed.
(* calls other than recv() *)
Lemma step_user_sameq st i a st' :
  step_user X cfg st i a = Some st' ->
  sameq i st st' \/
  exists pc c, nth_error (p_users st) i = Some (pc, c) /\ (pc = UStart CallRecv \/ exists w, pc = URecvWait w).
Proof.
  unfold step_user. destruct (nth_error _ _) as [[pc c]|]; [|discriminate].
  assert (D : (pc = UStart CallRecv \/ exists w, pc = URecvWait w) \/
              (pc <> UStart CallRecv /\ forall w, pc <> URecvWait w)).
  { destruct pc as [[]| | | | | | | | | | | | | | | |]; try (left; eauto; fail); right; split; discriminate. }
  destruct D as [D|[D1 D2]]; [right; exists pc, c; now split|].
  assert (G : step_call X cfg st i pc a = Some st' -> sameq i st st') by (now apply step_call_sameq).
  assert (G' : match a with Go => Some (cancel_call X cfg st i pc) | _ => None end = Some st' ->
               sameq i st st').
  { destruct a; try discriminate. intros H'. apply some_inj in H' as <-. now apply cancel_call_sameq. }
  intros H. left. destruct c; destruct pc; try discriminate; auto.
Qed.
Lemma step_user_uq st i a st' :
  Waiters st -> step_user X cfg st i a = Some st' ->
  uq i st st' /\ exists pc c, nth_error (p_users st) i = Some (pc, c) /\ forall r, pc <> UDone r.
Proof.
  intros W. unfold step_user. destruct (nth_error _ _) as [[pc c]|]; [|discriminate].
  assert (G : step_call X cfg st i pc a = Some st' -> uq i st st') by (now apply step_call_uq).
  assert (G' : match a with Go => Some (cancel_call X cfg st i pc) | _ => None end = Some st' ->
               uq i st st').
  { destruct a; try discriminate. intros H'. apply some_inj in H' as <-. now apply cancel_call_uq. }
  intros H. split; [destruct c; destruct pc; try discriminate; auto|].
  exists pc, c. split; [reflexivity|]. intros r ->. destruct c; discriminate.
Qed.
End Queue.
