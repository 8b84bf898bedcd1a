(* Data frames are written by calls to send(). *)
From Verif Require Import Base.Prelude Base.PreludeFacts Model.Streams Model.Frames
  Model.LegacyFraming Model.LegacyProtocol Spec.Messages Spec.Asyncio
  Proofs.LegacyShapes Proofs.LegacyUsers Proofs.LegacyFields Proofs.LegacyClose Proofs.LegacyQueue
  Proofs.LegacyMessages Proofs.LegacyFragments Proofs.LegacyTiming Proofs.LegacyWriters Proofs.LegacySend.
Local Open Scope N_scope.

Section Authors.
Context {E : Type} (X : ext_ops E) (cfg : config).
Implicit Type st : conn E.

Section Call.
Variable i : nat.

(** All data frames written are written by the i-th call *)
Definition mine st st' : Prop :=
  exists new, datas (p_out st') = datas (p_out st) ++ new /\ Forall (fun x => o_by x = ByCall i) new.
Lemma mine_same st st' : datas (p_out st') = datas (p_out st) -> mine st st'.
Proof. intros H. exists []. rewrite app_nil_r. now split. Qed.
Lemma mine_refl st : mine st st. Proof. now apply mine_same. Qed.
Lemma mine_gr st st' : gr st st' -> mine st st'.
Proof. intros (_ & _ & _ & H & _). now apply mine_same. Qed.
Lemma mine_trans st st1 st2 : mine st st1 -> mine st1 st2 -> mine st st2.
Proof.
  intros (n1 & H1 & F1) (n2 & H2 & F2). exists (n1 ++ n2). rewrite H2, H1, app_assoc. split; [reflexivity|].
  apply Forall_app. now split.
Qed.
Ltac mn := intros; first [now apply mine_same|eassumption].

Lemma write_mine st f st' e : write X cfg st (ByCall i) f = (st', e) -> mine st st'.
Proof.
  unfold write. destruct (serialize _ _ _ _ _) as [exts r]. intros H.
  destruct r; apply pair_equal_spec in H as [<- _]; [|mn].
  destruct (is_data_b f) eqn:D.
  - exists [Sent (ByCall i) f a]. split; [|now repeat constructor]. now apply datas_snoc_data.
  - apply mine_same. now apply datas_snoc.
Qed.
Lemma write_frame_mine st fin op data expected st' e :
  write_frame X cfg st (ByCall i) fin op data expected = (st', e) -> mine st st'.
Proof.
  unfold write_frame. destruct (negb _); [|apply write_mine]. intros H.
  apply pair_equal_spec in H as [<- _]. mn.
Qed.

Lemma recv_loop_mine st : mine st (recv_loop st i).
Proof.
  unfold recv_loop. destruct (p_messages st).
  - destruct (T_exists _); mn.
  - change (p_put (set_messages l st)) with (p_put st). destruct (p_put st); [|mn].
    destruct (set_result _ _); mn.
Qed.
Lemma recv_resume_mine st w : mine st (recv_resume cfg st i w).
Proof.
  unfold recv_resume. destruct (fut_done _).
  - eapply mine_trans; [|apply recv_loop_mine]. mn.
  - destruct (c_legacy_recv cfg); [mn|]. destruct (ensure_open _); [|mn|mn].
    eapply mine_trans; [|apply recv_loop_mine]. mn.
Qed.
Lemma end_fragments_mine st r : mine st (end_fragments st i r).
Proof. unfold end_fragments. destruct (p_frag st); [|mn]. destruct (set_result _ _); mn. Qed.
Lemma raise_fragments_mine st e : mine st (raise_fragments X cfg st i e).
Proof.
  unfold raise_fragments.
  destruct (fail_connection X cfg st 1011) as [st2 e2] eqn:F. apply fail_gr, mine_gr in F.
  destruct e; try (eapply mine_trans; [exact F|apply end_fragments_mine]).
  apply end_fragments_mine.
Qed.
Lemma send_item_mine st op rest d : mine st (send_item X cfg st i op rest d).
Proof.
  unfold send_item. destruct (prepare_data d) as [[op' data]|e]; [|apply raise_fragments_mine].
  destruct (negb _); [apply raise_fragments_mine|].
  destruct (write_frame _ _ _ _ _ _ _ _) as [st2 e] eqn:W. apply write_frame_mine in W. destruct e.
  - eapply mine_trans; [|apply raise_fragments_mine]. mn.
  - mn.
Qed.
Lemma send_last_mine st : mine st (send_last X cfg st i).
Proof.
  unfold send_last.
  destruct (write_frame _ _ _ _ _ _ _ _) as [st2 e] eqn:W. apply write_frame_mine in W. destruct e.
  - eapply mine_trans; [|apply raise_fragments_mine]. mn.
  - mn.
Qed.
Lemma send_next_mine st op src : mine st (send_next X cfg st i op src).
Proof.
  destruct src as [[|d items] [e|]|]; cbn [send_next];
    [apply raise_fragments_mine|apply send_last_mine|apply send_item_mine|apply send_item_mine|mn].
Qed.
Lemma send_first_mine st rest d : mine st (send_first X cfg st i rest d).
Proof.
  unfold send_first. destruct (prepare_data d) as [[op data]|e]; [|mn].
  destruct (write_frame _ _ _ _ _ _ _ _) as [st2 e] eqn:W. apply write_frame_mine in W. destruct e.
  - eapply mine_trans; [|apply raise_fragments_mine]. mn.
  - mn.
Qed.
Lemma send_loop_mine st m : mine st (send_loop X cfg st i m).
Proof.
  unfold send_loop. destruct (p_frag st); [mn|].
  destruct m as [d| |[|d items] [e|]| |]; try (mn; fail); try apply send_first_mine.
  destruct (prepare_data d) as [[op data]|e]; [|mn].
  destruct (write_frame _ _ _ _ _ _ _ _) as [st2 e] eqn:W. apply write_frame_mine in W. destruct e; mn.
Qed.

(** Calls which don't write data frames *)
Definition NW (pc : upc) : Prop :=
  match pc with
  | UStart (CallSend _) | USendFrag _ _ | UFragDrain _ _ | UFragLast | UFragEnsure | UANext _ => False
  | _ => True
  end.
Definition quiet st st' : Prop :=
  datas (p_out st') = datas (p_out st) /\ exists pc, NW pc /\ p_users st' = replace i (pc, false) (p_users st).
Lemma quiet_gr st st1 st' : gr st st1 -> quiet st1 st' -> quiet st st'.
Proof. intros (U & _ & _ & D & _) (Q1 & pc & Q2 & Q3). split; [congruence|]. exists pc. split; [exact Q2|congruence]. Qed.
Lemma quiet_set st st1 pc : NW pc -> p_users st1 = p_users st -> datas (p_out st1) = datas (p_out st) ->
  quiet st (set_user i pc st1).
Proof. intros N U D. split; [exact D|]. exists pc. split; [exact N|]. cbn [set_user p_users set_users]. now rewrite U. Qed.
Ltac qt := intros; apply quiet_set; [exact Logic.I|reflexivity|reflexivity].
Ltac qt_gr G := apply quiet_set; [exact Logic.I|apply G|apply G].

Lemma recv_loop_quiet st st1 : p_users st1 = p_users st -> datas (p_out st1) = datas (p_out st) -> quiet st (recv_loop st1 i).
Proof.
  intros U D. unfold recv_loop. destruct (p_messages st1).
  - destruct (T_exists _); now apply quiet_set.
  - change (p_put (set_messages l st1)) with (p_put st1). destruct (p_put st1); [|now apply quiet_set].
    destruct (set_result _ _); now apply quiet_set.
Qed.
Lemma recv_resume_quiet st w : quiet st (recv_resume cfg st i w).
Proof.
  unfold recv_resume. destruct (fut_done _); [now apply recv_loop_quiet|].
  destruct (c_legacy_recv cfg); [qt|]. destruct (ensure_open _); [now apply recv_loop_quiet|qt|qt].
Qed.
Lemma close_wait_T_quiet st t0 : quiet st (close_wait_T cfg st i t0).
Proof. unfold close_wait_T. destruct (T_exists st); qt. Qed.
Lemma close_timed_out_quiet st t0 : quiet st (close_timed_out X cfg st i t0).
Proof.
  unfold close_timed_out. destruct (fail_connection _ _ _ _) as [st2 e2] eqn:F. apply fail_gr in F.
  eapply quiet_gr; [exact F|apply close_wait_T_quiet].
Qed.
Lemma close_start_quiet st code reason : quiet st (close_start X cfg st i code reason).
Proof.
  unfold close_start. destruct (serialize_close _ _); [|qt].
  assert (G : quiet st
     match write_close_frame X cfg st (ByCall i) a with
     | (st2, Some (Some e)) => raise_ i (PyExn e) st2
     | (st2, Some None) => set_user i (UCloseWrite (deadline st2 (c_close_timeout cfg)) (p_now st2)) st2
     | (st2, None) => close_wait_T cfg st2 i (p_now st2)
     end).
  { destruct (write_close_frame _ _ _ _ _) as [st2 r] eqn:W. apply write_close_frame_gr in W.
    destruct r as [[e|]|]; (eapply quiet_gr; [exact W|]); [qt|qt|apply close_wait_T_quiet]. }
  destruct (c_close_timeout cfg) as [[|q]|]; [apply close_timed_out_quiet|exact G|exact G].
Qed.
Lemma cancel_call_quiet st pc : NW pc -> quiet st (cancel_call X cfg st i pc).
Proof.
  unfold cancel_call. destruct pc; try contradiction; intros _; try qt.
  eapply quiet_gr; [apply cancel_T_gr|qt].
Qed.
Lemma cancel_call_mine st pc : mine st (cancel_call X cfg st i pc).
Proof.
  unfold cancel_call. destruct pc; try (mn; fail); try apply raise_fragments_mine.
  - destruct op; [apply raise_fragments_mine|mn].
  - eapply mine_trans; [apply mine_gr, cancel_T_gr|mn].
Qed.

Ltac some_q H := apply some_inj in H as <-.

Lemma start_call_quiet st c a st' : NW (UStart c) -> start_call X cfg st i c a = Some st' -> quiet st st'.
Proof.
  intros N. unfold start_call. intros H. destruct c; destruct a; try contradiction; try discriminate; try some_q H.
  - destruct (p_pop st); [qt|now apply recv_loop_quiet].
  - apply close_start_quiet.
  - destruct (ensure_open st); [|some_q H; qt|some_q H; qt]. destruct data as [d|].
    + destruct (prepare_ctrl d); [|some_q H; qt].
      destruct (has_ping _ _); [some_q H; qt|].
      destruct (start_ping _ _ _ _ _) as [st2 e] eqn:W. apply start_ping_gr in W. destruct e; some_q H;
        (eapply quiet_gr; [exact W|qt]).
    + destruct (random_ok _ _); [|discriminate].
      destruct (start_ping _ _ _ _ _) as [st2 e] eqn:W. apply start_ping_gr in W. destruct e; some_q H;
        (eapply quiet_gr; [exact W|qt]).
  - destruct (ensure_open st); [|qt|qt]. destruct (prepare_ctrl data); [|qt].
    destruct (write_frame _ _ _ _ _ _ _ _) as [st2 e] eqn:W. apply write_frame_gr in W; [|reflexivity].
    destruct e; (eapply quiet_gr; [exact W|qt]).
  - qt.
Qed.

Lemma step_call_quiet st pc a st' : NW pc -> step_call X cfg st i pc a = Some st' -> quiet st st'.
Proof.
  intros N.
  assert (D : forall (k1 : conn E -> conn E) (k2 : conn E -> pexn -> conn E) (k3 : conn E -> conn E),
    (forall s, quiet s (k1 s)) -> (forall s e, quiet s (k2 s e)) -> (forall s, quiet s (k3 s)) ->
    match after_drain X cfg st a with
    | Some (s2, EOk) => Some (k1 s2)
    | Some (s2, ERaise e) => Some (k2 s2 e)
    | Some (s2, EWait) => Some (k3 s2)
    | None => None
    end = Some st' -> quiet st st').
  { intros k1 k2 k3 H1 H2 H3 H. destruct (after_drain _ _ _ _) as [[s2 r]|] eqn:Q; [|discriminate].
    apply after_drain_gr in Q.
    destruct r; some_q H; (eapply quiet_gr; [exact Q|first [apply H1|apply H2|apply H3]]). }
  unfold step_call. intros H. destruct pc; try contradiction.
  - eapply start_call_quiet; eassumption.
  - destruct a; try discriminate. destruct (_ || _); [|discriminate]. some_q H. apply recv_resume_quiet.
  - destruct a; try discriminate. destruct (ensure_open_end st); [|discriminate]. some_q H. qt.
  - eapply (D (fun s => return_ i RNone s) (fun s e => raise_ i e s) (fun s => set_user i UEnsure s));
      [qt|qt|qt|exact H].
  - eapply (D (fun s => match find_ping s data with
                        | Some w => return_ i (RPing w) s
                        | None => raise_ i (PyExn KeyError) s end) (fun s e => raise_ i e s)
              (fun s => set_user i UEnsure s)); [intros; destruct (find_ping s data); qt|qt|qt|exact H].
  - assert (G : match after_drain X cfg st a with
                | Some (st, EOk) => Some (close_wait_T cfg st i t0)
                | Some (st, ERaise e) => Some (raise_ i e st)
                | Some (st, EWait) => Some (set_user i (UCloseEnsure d t0) st)
                | None => None
                end = Some st' -> quiet st st').
    { apply (D (fun s => close_wait_T cfg s i t0) (fun s e => raise_ i e s)
             (fun s => set_user i (UCloseEnsure d t0) s)); [intros; apply close_wait_T_quiet|qt|qt]. }
    destruct a; try (now apply G). destruct (expired st d); [|discriminate]. some_q H.
    apply close_timed_out_quiet.
  - destruct a; try discriminate.
    + destruct (ensure_open_end st); [|discriminate]. some_q H. qt.
    + destruct (expired st d); [|discriminate]. some_q H. apply close_timed_out_quiet.
  - destruct a; try discriminate.
    + destruct (p_T st) as [| | | | | | |[e|]] eqn:HT; try discriminate; some_q H; qt.
    + destruct (expired st d); [|discriminate]. some_q H.
      eapply quiet_gr; [apply cancel_T_gr|qt].
  - destruct a; try discriminate. destruct (T_done st); [|discriminate]. some_q H. qt.
  - destruct a; try discriminate.
    destruct (p_C st) as [| | | | | | |[e|]]; try discriminate; some_q H; qt.
  - destruct a; try discriminate. destruct (is_lost st); [|discriminate]. some_q H. qt.
  - discriminate.
Qed.
Lemma step_call_mine st pc a st' : step_call X cfg st i pc a = Some st' -> mine st st'.
Proof.
  assert (Nq : NW pc -> step_call X cfg st i pc a = Some st' -> mine st st').
  { intros N H. apply mine_same. exact (proj1 (step_call_quiet st pc a st' N H)). }
  assert (D : forall (k1 : conn E -> conn E) (k2 : conn E -> pexn -> conn E) (k3 : conn E -> conn E),
    (forall s, mine s (k1 s)) -> (forall s e, mine s (k2 s e)) -> (forall s, mine s (k3 s)) ->
    match after_drain X cfg st a with
    | Some (s2, EOk) => Some (k1 s2)
    | Some (s2, ERaise e) => Some (k2 s2 e)
    | Some (s2, EWait) => Some (k3 s2)
    | None => None
    end = Some st' -> mine st st').
  { intros k1 k2 k3 H1 H2 H3 H. destruct (after_drain _ _ _ _) as [[s2 r]|] eqn:Q; [|discriminate].
    apply after_drain_gr, mine_gr in Q.
    destruct r; some_q H; (eapply mine_trans; [exact Q|first [apply H1|apply H2|apply H3]]). }
  destruct pc; try (apply Nq; exact Logic.I); clear Nq; unfold step_call.
  - destruct c; try (intros H; apply mine_same; refine (proj1 (start_call_quiet st _ _ _ _ H)); exact Logic.I).
    unfold start_call. destruct a; try discriminate. intros H. some_q H.
    destruct (ensure_open st); [apply send_loop_mine|mn|mn].
  - destruct a; try discriminate. destruct (fut_done _); [|discriminate]. intros H. some_q H. apply send_loop_mine.
  - apply (D (fun s => send_next X cfg s i op rest) (fun s e => raise_fragments X cfg s i e)
             (fun s => set_user i UFragEnsure s));
      [intros; apply send_next_mine|intros; apply raise_fragments_mine|mn].
  - apply (D (fun s => end_fragments s i RNone) (fun s e => raise_fragments X cfg s i e)
             (fun s => set_user i UFragEnsure s));
      [intros; apply end_fragments_mine|intros; apply raise_fragments_mine|mn].
  - destruct a; try discriminate. destruct (ensure_open_end st); [|discriminate]. intros H. some_q H.
    apply raise_fragments_mine.
  - intros H. destruct op; destruct a as [| | | | |[]]; try discriminate; some_q H;
      first [apply send_item_mine|apply send_last_mine|apply raise_fragments_mine
            |apply send_first_mine|mn].
Qed.
Lemma step_user_mine st a st' : step_user X cfg st i a = Some st' -> mine st st'.
Proof.
  unfold step_user. destruct (nth_error _ _) as [[pc c]|]; [|discriminate].
  assert (G : step_call X cfg st i pc a = Some st' -> mine st st') by apply step_call_mine.
  assert (G' : match a with Go => Some (cancel_call X cfg st i pc) | _ => None end = Some st' -> mine st st').
  { destruct a; try discriminate. intros H'. apply some_inj in H' as <-. apply cancel_call_mine. }
  destruct c; destruct pc; try discriminate; auto.
Qed.
Lemma step_user_quiet st a st' pc c : nth_error (p_users st) i = Some (pc, c) -> NW pc ->
  step_user X cfg st i a = Some st' -> quiet st st'.
Proof.
  intros Hi N. unfold step_user. rewrite Hi.
  assert (G : step_call X cfg st i pc a = Some st' -> quiet st st') by now apply step_call_quiet.
  assert (G' : match a with Go => Some (cancel_call X cfg st i pc) | _ => None end = Some st' -> quiet st st').
  { destruct a; try discriminate. intros H'. apply some_inj in H' as <-. now apply cancel_call_quiet. }
  destruct c; destruct pc; try discriminate; auto.
Qed.
End Call.

(** The calls made so far *)
Lemma calls_app ls ls' : calls (ls ++ ls') = calls ls ++ calls ls'.
Proof. apply flat_map_app. Qed.
Lemma classify (c : call) : (exists m, c = CallSend m) \/ (forall m, c <> CallSend m).
Proof. destruct c; try (right; discriminate). left. eauto. Qed.
Definition Authors (ls : list label) st : Prop :=
  length (p_users st) = length (calls ls) /\
  (forall i c, nth_error (calls ls) i = Some c -> (forall m, c <> CallSend m) ->
     exists pc b, nth_error (p_users st) i = Some (pc, b) /\ NW pc) /\
  (forall x, In x (datas (p_out st)) ->
     exists i m, o_by x = ByCall i /\ nth_error (calls ls) i = Some (CallSend m)).

Lemma step_other_datas st l st' : (forall i a, l <> LUser i a) -> step X cfg st l = Some st' ->
  datas (p_out st') = datas (p_out st).
Proof.
  intros N H. destruct l; cbn [step] in H.
  - destruct (p_state st); try discriminate. destruct (p_C st); try discriminate. now apply some_inj in H as <-.
  - destruct (fail_connection _ _ _ _) as [st2 e2] eqn:F. apply some_inj in H as <-. cbn [fst]. apply fail_gr in F. apply F.
  - destruct (r_eof _); [discriminate|]. now apply some_inj in H as <-.
  - destruct (r_eof _); [discriminate|]. now apply some_inj in H as <-.
  - assert (H' : connection_lost st o closing = st') by (destruct (p_state st); try discriminate; now apply some_inj in H).
    destruct (connection_lost_shape st o closing) as (? & ? & ? & ? & ? & Sh). rewrite Sh in H'. now subst st'.
  - now apply some_inj in H as <-.
  - now apply some_inj in H as <-.
  - now apply some_inj in H as <-.
  - destruct (nth_error (p_users st) i) as [[pc0 c0]|] eqn:Hj; [|discriminate].
    assert (H' : set_users (replace i (pc0, true) (p_users st)) st = st')
      by (destruct pc0; try discriminate; now apply some_inj in H).
    now subst st'.
  - apply step_T_gr in H. apply H.
  - apply step_K_gr in H. apply H.
  - destruct (step_C_shape cfg st a st' H) as (? & ? & ? & ? & ? & ->). reflexivity.
  - now destruct (N i a).
Qed.

Lemma Authors_step ls st l st' : Waiters st -> Authors ls st -> step X cfg st l = Some st' -> Authors (ls ++ [l]) st'.
Proof.
  intros Wt (A1 & A2 & A3) H.
  assert (Ln : length (p_users st') = length (calls (ls ++ [l]))).
  { rewrite calls_app, app_length, <- A1. destruct (step_length X cfg _ _ _ Wt H) as [Q|(c & -> & Q)].
    - destruct l; cbn [calls flat_map length app]; try lia. cbn [step] in H. apply some_inj in H as <-.
      cbn [p_users set_users] in Q. rewrite app_length in Q. cbn [length] in Q. lia.
    - rewrite Q, app_length. reflexivity. }
  split; [exact Ln|].
  assert (Ex : forall i c, nth_error (calls ls) i = Some c -> nth_error (calls (ls ++ [l])) i = Some c).
  { intros i c Q. rewrite calls_app. rewrite nth_error_app1; [exact Q|]. apply nth_error_Some. congruence. }
  assert (D : (exists j a, l = LUser j a) \/ (forall j a, l <> LUser j a)).
  { destruct l; try (right; discriminate). left. eauto. }
  split.
  - intros i c Hi Hc. rewrite calls_app in Hi. destruct (Nat.lt_ge_cases i (length (calls ls))) as [Q|Q].
    + rewrite nth_error_app1 in Hi by exact Q. destruct (A2 i c Hi Hc) as (pc & b & P1 & P2).
      assert (Ds : (exists a, l = LUser i a) \/ (forall a, l <> LUser i a)).
      { destruct l; try (right; discriminate). destruct (Nat.eq_dec i0 i) as [-> |Hn]; [left; eauto|right; congruence]. }
      destruct Ds as [(a & ->)|Ds].
      * destruct (step_user_quiet i st a st' pc b P1 P2 H) as (_ & pc' & N' & U). exists pc', false. split; [|exact N'].
        rewrite U. apply nth_error_replace_eq. apply nth_error_Some. congruence.
      * destruct (step_other_user X cfg st l st' i pc b Wt Ds H P1) as (b' & P3 & _). exists pc, b'. now split.
    + rewrite nth_error_app2 in Hi by exact Q. rewrite <- A1 in *.
      destruct l; cbn [calls flat_map app] in Hi; try (destruct (i - _)%nat; discriminate).
      cbn [step] in H. apply some_inj in H as <-. cbn [p_users set_users].
      rewrite nth_error_app2 by exact Q. destruct (i - length (p_users st))%nat as [|n]; [|destruct n; discriminate].
      cbn [nth_error] in Hi. apply some_inj in Hi as <-. exists (UStart c0), false. split; [reflexivity|].
      destruct c0; try exact Logic.I. now destruct (Hc m).
  - intros x Hx. destruct D as [(j & a & ->)|D].
    + destruct (step_user_mine j st a st' H) as (new & Q1 & Q2). rewrite Q1 in Hx. apply in_app_or in Hx as [Hx|Hx].
      * destruct (A3 x Hx) as (i & m & R1 & R2). exists i, m. auto.
      * rewrite Forall_forall in Q2. pose proof (Q2 x Hx) as R1. exists j.
        assert (Lj : (j < length (calls ls))%nat).
        { rewrite <- A1. cbn [step] in H. unfold step_user in H. apply nth_error_Some. intros Nj. now rewrite Nj in H. }
        apply nth_error_Some in Lj. destruct (nth_error (calls ls) j) as [c|] eqn:Ec; [|contradiction].
        destruct (classify c) as [(m & ->)|Nm]; [exists m; auto|].
        destruct (A2 j c Ec Nm) as (pc & b & P1 & P2).
        destruct (step_user_quiet j st a st' pc b P1 P2 H) as (Dq & _).
        rewrite Q1 in Dq. rewrite <- (app_nil_r (datas (p_out st))) in Dq at 2. apply app_inv_head in Dq. now subst new.
    + rewrite (step_other_datas st l st' D H) in Hx. destruct (A3 x Hx) as (i & m & R1 & R2). exists i, m. auto.
Qed.
Lemma Authors_exec exts ls st : exec X cfg (initial exts) ls = Some st -> Authors ls st.
Proof.
  revert st. induction ls as [|l ls IH] using rev_ind; intros st H.
  - cbn [exec] in H. apply some_inj in H as <-. split; [reflexivity|]. split; [|intros x []].
    intros i c Q. destruct i; discriminate.
  - rewrite exec_app in H. destruct (exec X cfg (initial exts) ls) as [st1|] eqn:H1; [|discriminate].
    cbn [exec] in H. destruct (step X cfg st1 l) as [st2|] eqn:S1; [|discriminate]. apply some_inj in H as <-.
    destruct (Recv_exec X cfg exts ls st1 H1) as [_ (Wt & _)]. eapply Authors_step; eauto.
Qed.
End Authors.
