(* Facts about the connections and the handlers of a server. *)
From Verif Require Import Base.Prelude Base.PreludeFacts Model.Streams Model.Frames Model.Http11 Model.Handshake Model.Server
  Model.LegacyHandshake Model.LegacyFraming Model.LegacyProtocol Model.LegacyServer Spec.Asyncio
  Proofs.LegacyPrims Proofs.LegacyFields Proofs.LegacyShapes Proofs.LegacyUsers Proofs.LegacyClose
  Proofs.LegacyQueue Proofs.LegacyMessages Proofs.LegacyFragments Proofs.LegacyTiming Proofs.LegacySend
  Properties.AsyncioState Properties.AsyncioClosing.
Local Open Scope N_scope.

Section Connections.
Context {E : Type} (X : ext_ops E) (cfg : config).
Implicit Type st : conn E.

(** A connection opens only when the handshake succeeds *)
Lemma prim_not_open st st' : prim cfg False st st' -> p_state st <> Open -> p_state st' <> Open.
Proof.
  intros P H. destruct P; try exact H; try contradiction; try congruence.
  pose proof (connection_lost_fields st o c) as (-> & _). discriminate.
Qed.
Lemma prim_closing o st st' : prim cfg o st st' -> p_closing st = true -> p_closing st' = true.
Proof.
  intros P H. destruct P; try exact H; try reflexivity.
  unfold connection_lost. cbv zeta. set (st1 := set_state Closed _).
  assert (H1 : p_closing st1 = true) by (cbn; now rewrite H). clearbody st1.
  set (st2 := match p_close st1 with None => _ | Some _ => _ end).
  assert (H2 : p_closing st2 = true) by (unfold st2; now destruct (p_close st1)). clearbody st2.
  destruct (abort_futs _ _ _) as [futs []]; exact H2.
Qed.
Lemma record_frame_closing st f : p_closing (record_frame st f) = p_closing st.
Proof.
  unfold record_frame, receive_pong. destruct (f_opcode f); try reflexivity.
  - now destruct (parse_close _).
  - destruct (has_ping _ _); [|reflexivity]. now destruct (acknowledge _ _ _).
Qed.
Lemma step_not_open st l st' : l <> LOpen -> step X cfg st l = Some st' -> p_state st <> Open -> p_state st' <> Open.
Proof.
  intros Hl H. apply (step_reach X cfg False) in H; [|exact Hl].
  assert (G : forall s1 s2 : conn E, reach cfg False s1 s2 -> p_state s1 <> Open -> p_state s2 <> Open).
  { intros s1 s2 R Q. apply (reach_invariant cfg False (fun s : conn E => p_state s <> Open) s1 s2); [|exact Q|exact R]. intros a c Ha P. now apply (prim_not_open a). }
  destruct H as [st2 R|c f st1 st2 _ R1 _ _ _ R2]; [now apply G|].
  intros N. apply (G _ _ R2). pose proof (record_frame_fields st1 f) as (-> & _). exact (G _ _ R1 N).
Qed.
Lemma step_closing st l st' : step X cfg st l = Some st' -> p_closing st = true -> p_closing st' = true.
Proof.
  intros H. apply (step_reach X cfg True) in H; [|auto].
  assert (G : forall s1 s2 : conn E, reach cfg True s1 s2 -> p_closing s1 = true -> p_closing s2 = true).
  { intros s1 s2 R Q. apply (reach_invariant cfg True (fun s : conn E => p_closing s = true) s1 s2); [|exact Q|exact R]. intros a c Ha P. now apply (prim_closing True a). }
  destruct H as [st2 R|c f st1 st2 _ R1 _ _ _ R2]; [now apply G|].
  intros N. apply (G _ _ R2). rewrite record_frame_closing. exact (G _ _ R1 N).
Qed.

Definition Good st : Prop := Base st /\ Recv cfg st /\ Ended st.
Lemma Good_step st l st' : Good st -> step X cfg st l = Some st' -> Good st'.
Proof.
  intros (B & R & F) H. split; [eapply Base_step; eassumption|]. split; [eapply Recv_step; eassumption|].
  destruct (step_ended X cfg st l st' B H) as (_ & _ & Q). auto.
Qed.
Lemma Good_initial exts : Good (initial exts).
Proof. destruct (Recv_exec X cfg exts [] (initial exts) eq_refl) as [B R]. split; [exact B|]. split; [exact R|exact Logic.I]. Qed.

(** The transport is closed, or it's being closed *)
Definition gone st : Prop := p_lost st <> None \/ p_aborted st <> None \/ p_closing st = true.
Lemma gone_step st l st' : Good st -> step X cfg st l = Some st' -> gone st -> gone st'.
Proof.
  intros (B & R & F) H G. destruct G as [G|[G|G]].
  - left. destruct (p_lost_step X cfg _ _ _ H) as [[-> _]|(o & c & _ & N)]; [exact G|].
    destruct B as (_ & Lo & _). apply Lo in G. contradiction.
  - right. left. destruct (step_ended X cfg st l st' B H) as (_ & Q & _). auto.
  - right. right. eapply step_closing; eassumption.
Qed.

(** A call to wait_closed() *)
Definition Waiter st (i : nat) : Prop :=
  exists pc c, nth_error (p_users st) i = Some (pc, c) /\
    match pc with
    | UStart CallWaitClosed | UWaitClosed | UDone (RRaise CancelledError) => True
    | UDone RNone => p_lost st <> None
    | _ => False
    end.
(** A call to close() *)
Definition not0 : Prop := c_close_timeout cfg <> Some 0.
Definition close_pc st (pc : upc) : Prop :=
  match pc with
  | UCloseWrite _ _ | UCloseEnsure _ _ | UCloseT _ _ | UCloseT2 _ | UCloseC _ | UDone (RRaise _) => True
  | UDone RNone => p_C st = CDone None
  | _ => False
  end.
Definition Closer (code : Z) st (i : nat) : Prop :=
  exists pc c, nth_error (p_users st) i = Some (pc, c) /\
    (pc = UStart (CallClose code []) \/ pc = UDone (RRaise CancelledError) \/
     close_pc st pc /\ (not0 -> p_state st <> Open)).

Lemma user_dec i l : (exists a, l = LUser i a) \/ forall a, l <> LUser i a.
Proof. destruct l; try (right; discriminate). destruct (Nat.eq_dec i0 i) as [-> |Hn]; [left; eauto|right; congruence]. Qed.
Lemma nth_set_user st i pc x : nth_error (p_users st) i = Some x -> nth_error (p_users (set_user i pc st)) i = Some (pc, false).
Proof. intros H. cbn [set_user p_users set_users]. apply nth_error_replace_eq. apply nth_error_Some. congruence. Qed.

Lemma Waiter_step st l st' i : l <> LOpen -> Good st -> step X cfg st l = Some st' -> Waiter st i -> Waiter st' i.
Proof.
  intros Hl G H (pc & c & Hi & Hp). destruct (user_dec i l) as [[a ->]|N].
  - cbn [step] in H. unfold step_user in H. rewrite Hi in H.
    destruct pc as [[]| | | | | | | | | | | | | | | |r]; try contradiction.
    + destruct c.
      * destruct a; try discriminate. apply some_inj in H as <-. exists (UDone (RRaise CancelledError)), false.
        split; [exact (nth_set_user _ _ _ _ Hi)|exact Logic.I].
      * cbn [step_call start_call] in H. destruct a; try discriminate. apply some_inj in H as <-.
        exists UWaitClosed, false. split; [exact (nth_set_user _ _ _ _ Hi)|exact Logic.I].
    + destruct c.
      * destruct a; try discriminate. apply some_inj in H as <-. exists (UDone (RRaise CancelledError)), false.
        split; [exact (nth_set_user _ _ _ _ Hi)|exact Logic.I].
      * cbn [step_call] in H. destruct a; try discriminate. destruct (is_lost st) eqn:Il; [|discriminate].
        apply some_inj in H as <-. exists (UDone RNone), false. split; [exact (nth_set_user _ _ _ _ Hi)|].
        cbn [return_ set_user p_lost set_users]. unfold is_lost in Il. destruct (p_lost st); discriminate.
    + destruct c; discriminate.
  - destruct G as (B & ((Wt & _) & F)). destruct (step_other_user X cfg _ _ _ _ _ _ Wt N H Hi) as (c' & Hi' & _).
    exists pc, c'. split; [exact Hi'|]. destruct pc as [| | | | | | | | | | | | | | | |[| | |]]; try exact Hp.
    destruct (p_lost_step X cfg _ _ _ H) as [[-> _]|(o & x & _ & Nc)]; [exact Hp|].
    destruct B as (_ & Lo & _). apply Lo in Hp. contradiction.
Qed.

Definition at_close_pc st (i : nat) : Prop := exists pc c, nth_error (p_users st) i = Some (pc, c) /\ close_pc st pc.
Lemma at_set_user st st1 i pc x :
  nth_error (p_users st) i = Some x -> p_users st1 = p_users st -> close_pc (set_user i pc st1) pc -> at_close_pc (set_user i pc st1) i.
Proof. intros H U C. exists pc, false. split; [|exact C]. apply (nth_set_user st1 i pc x). now rewrite U. Qed.
Lemma at_close_wait_T st st1 i t0 x :
  nth_error (p_users st) i = Some x -> p_users st1 = p_users st -> at_close_pc (close_wait_T cfg st1 i t0) i.
Proof. intros H U. unfold close_wait_T. destruct (T_exists st1); now apply (at_set_user st st1 i _ x). Qed.
Lemma at_close_timed_out st st1 i t0 x :
  nth_error (p_users st) i = Some x -> p_users st1 = p_users st -> at_close_pc (close_timed_out X cfg st1 i t0) i.
Proof.
  intros H U. unfold close_timed_out. destruct (fail_connection X cfg st1 1006) as [st2 e] eqn:F.
  apply fail_shape in F as (c & o & y & s & b & ->). now apply (at_close_wait_T st _ i t0 x).
Qed.
Lemma close_pc_step st i a st' pc c :
  nth_error (p_users st) i = Some (pc, c) -> close_pc st pc -> step_user X cfg st i a = Some st' -> at_close_pc st' i.
Proof.
  intros Hi C H. unfold step_user in H. rewrite Hi in H.
  destruct pc; try contradiction; try discriminate; (destruct c;
    [destruct a; try discriminate; apply some_inj in H as <-; cbn [cancel_call];
     try (now apply (at_set_user st st i _ _ Hi)) |]).
  - cbn [step_call] in H.
    assert (G : match after_drain X cfg st a with
                | None => None
                | Some (st, EOk) => Some (close_wait_T cfg st i t0)
                | Some (st, ERaise e) => Some (raise_ i e st)
                | Some (st, EWait) => Some (set_user i (UCloseEnsure d t0) st)
                end = Some st' -> at_close_pc st' i).
    { destruct (after_drain X cfg st a) as [[st2 r]|] eqn:D; [|discriminate].
      apply after_drain_shape in D as (c & o & y & s & b & ->).
      destruct r; intros Q; apply some_inj in Q as <-; [now apply (at_close_wait_T st _ i t0 _ Hi)|..];
        now apply (at_set_user st _ i _ _ Hi). }
    destruct a; try (exact (G H)). destruct (expired st d); [|discriminate]. apply some_inj in H as <-.
    now apply (at_close_timed_out st _ i t0 _ Hi).
  - cbn [step_call] in H. destruct a; try discriminate.
    + destruct (ensure_open_end st); [|discriminate]. apply some_inj in H as <-. now apply (at_set_user st _ i _ _ Hi).
    + destruct (expired st d); [|discriminate]. apply some_inj in H as <-. now apply (at_close_timed_out st _ i t0 _ Hi).
  - destruct (cancel_T_shape st) as [b ->]. now apply (at_set_user st _ i _ _ Hi).
  - cbn [step_call] in H. destruct a; try discriminate.
    + destruct (p_T st) as [| | | | | | |[e|]]; try discriminate; apply some_inj in H as <-; now apply (at_set_user st _ i _ _ Hi).
    + destruct (expired st d); [|discriminate]. apply some_inj in H as <-.
      destruct (cancel_T_shape st) as [b ->]. now apply (at_set_user st _ i _ _ Hi).
  - cbn [step_call] in H. destruct a; try discriminate.
    destruct (T_done st); [|discriminate]. apply some_inj in H as <-. now apply (at_set_user st _ i _ _ Hi).
  - cbn [step_call] in H. destruct a; try discriminate.
    destruct (p_C st) as [| | | | | | |[e|]] eqn:PC; try discriminate; apply some_inj in H as <-; now apply (at_set_user st _ i _ _ Hi).
Qed.
Lemma close_start_not_open st i code data x :
  nth_error (p_users st) i = Some x -> serialize_close code [] = Ok data ->
  at_close_pc (close_start X cfg st i code []) i /\ (not0 -> p_state (close_start X cfg st i code []) <> Open).
Proof.
  intros Hi Hd. unfold close_start. rewrite Hd.
  assert (G : forall st1, p_users st1 = p_users st -> p_state st1 <> Open ->
    at_close_pc (close_wait_T cfg st1 i (p_now st1)) i /\ (not0 -> p_state (close_wait_T cfg st1 i (p_now st1)) <> Open)).
  { intros st1 U N. split; [now apply (at_close_wait_T st _ i _ _ Hi)|]. intros _. unfold close_wait_T.
    now destruct (T_exists st1). }
  destruct (write_close_frame X cfg st (ByCall i) data) as [st2 r] eqn:W.
  assert (Q : p_users st2 = p_users st /\ p_state st2 <> Open).
  { unfold write_close_frame in W. destruct (is_open (p_state st)) eqn:O.
    - destruct (write_frame _ _ _ _ _ _ _ _) as [st3 e3] eqn:F. apply pair_equal_spec in W as [<- _].
      apply write_frame_shape in F as (o & y & ->). now split.
    - apply pair_equal_spec in W as [<- _]. split; [reflexivity|]. intros N. now rewrite N in O. }
  destruct Q as [Q1 Q2].
  assert (D : at_close_pc
     match r with
     | Some (Some e) => raise_ i (PyExn e) st2
     | Some None => set_user i (UCloseWrite (deadline st2 (c_close_timeout cfg)) (p_now st2)) st2
     | None => close_wait_T cfg st2 i (p_now st2)
     end i /\ (not0 -> p_state match r with
     | Some (Some e) => raise_ i (PyExn e) st2
     | Some None => set_user i (UCloseWrite (deadline st2 (c_close_timeout cfg)) (p_now st2)) st2
     | None => close_wait_T cfg st2 i (p_now st2)
     end <> Open)).
  { destruct r as [[e|]|]; [..|now apply G]; (split; [now apply (at_set_user st _ i _ _ Hi)|intros _; exact Q2]). }
  destruct (c_close_timeout cfg) as [[|t]|] eqn:T; try exact D.
  split; [|intros Q; now destruct (Q T)]. now apply (at_close_timed_out st _ i _ _ Hi).
Qed.

Lemma Closer_step code st l st' i data : serialize_close code [] = Ok data ->
  l <> LOpen -> Good st -> step X cfg st l = Some st' -> Closer code st i -> Closer code st' i.
Proof.
  intros Hd Hl G H (pc & c & Hi & Hp). destruct (user_dec i l) as [[a ->]|N].
  - destruct Hp as [-> |[-> |[Hp Ho]]].
    + cbn [step] in H. unfold step_user in H. rewrite Hi in H. destruct c.
      * destruct a; try discriminate. apply some_inj in H as <-. eexists _, false.
        split; [exact (nth_set_user _ _ _ _ Hi)|]. right. now left.
      * cbn [step_call start_call] in H. destruct a; try discriminate. apply some_inj in H as <-.
        destruct (close_start_not_open st i code data _ Hi Hd) as [(pc & c & A & B) C]. exists pc, c. split; [exact A|]. right. right. auto.
    + cbn [step] in H. unfold step_user in H. rewrite Hi in H. discriminate.
    + pose proof (step_not_open _ _ _ Hl H) as O. cbn [step] in H.
      destruct (close_pc_step _ _ _ _ _ _ Hi Hp H) as (pc' & c' & A & B). exists pc', c'. split; [exact A|]. right. right. auto.
  - pose proof (step_not_open _ _ _ Hl H) as O.
    destruct G as (B & ((Wt & _) & F)). destruct (step_other_user X cfg _ _ _ _ _ _ Wt N H Hi) as (c' & Hi' & _).
    exists pc, c'. split; [exact Hi'|]. destruct Hp as [-> |[-> |[Hp Ho]]]; auto.
    right. right. split; [|auto]. destruct pc as [| | | | | | | | | | | | | | | |[| | |]]; try exact Hp.
    cbn [close_pc] in Hp |- *. destruct (step_ended X cfg st l st' B H) as (Q & _ & _). auto.
Qed.
End Connections.

(** Steps of connections and of their handlers *)
Section Moves.
Context {E : Type} (X : ext_ops E) (cfg : config).
Implicit Type st : conn E.

Inductive moves (may_open : Prop) st : conn E -> Prop :=
| m_refl : moves may_open st st
| m_step st1 l st2 : moves may_open st st1 -> (l = LOpen -> may_open) -> step X cfg st1 l = Some st2 -> moves may_open st st2
| m_exts st1 x : moves may_open st st1 -> moves may_open st (set_exts x st1).

Lemma moves_one (o : Prop) st l st' : (l = LOpen -> o) -> step X cfg st l = Some st' -> moves o st st'.
Proof. intros Hl H. eapply m_step; [apply m_refl|exact Hl|exact H]. Qed.
Lemma moves_trans o st st1 st2 : moves o st st1 -> moves o st1 st2 -> moves o st st2.
Proof. intros A. induction 1; [exact A|eapply m_step; eassumption|now apply m_exts]. Qed.
Lemma Good_moves o st st' : moves o st st' -> Good cfg st -> Good cfg st'.
Proof. intros M G. induction M; [exact G|eapply Good_step; eassumption|exact IHM]. Qed.
Lemma gone_moves o st st' : moves o st st' -> Good cfg st -> gone st -> gone st'.
Proof.
  intros M G N. induction M; [exact N| |exact IHM].
  eapply gone_step; [|eassumption|exact IHM]. eapply Good_moves; eassumption.
Qed.
Lemma not_open_moves st st' : moves False st st' -> p_state st <> Open -> p_state st' <> Open.
Proof. intros M N. induction M; [exact N|eapply step_not_open; eassumption|exact IHM]. Qed.
Lemma Closer_moves code data st st' i : serialize_close code [] = Ok data ->
  moves False st st' -> Good cfg st -> Closer cfg code st i -> Closer cfg code st' i.
Proof.
  intros Hd M G C. induction M; [exact C| |exact IHM].
  refine (Closer_step X cfg code _ _ _ i data Hd _ (Good_moves _ _ _ M G) H0 IHM). intros ->. auto.
Qed.

(** Before the opening handshake *)
Definition Pre st : Prop := p_state st = Connecting \/ p_state st = Closed.
Lemma prim_pre st st' : prim cfg False st st' -> Pre st -> Pre st'.
Proof.
  intros P H. destruct P; try exact H; try contradiction; try (destruct H; congruence).
  right. now pose proof (connection_lost_fields st o c) as (-> & _).
Qed.
Lemma step_pre st l st' : l <> LOpen -> step X cfg st l = Some st' -> Pre st -> Pre st'.
Proof.
  intros Hl H. apply (step_reach X cfg False) in H; [|exact Hl].
  assert (G : forall s1 s2 : conn E, reach cfg False s1 s2 -> Pre s1 -> Pre s2).
  { intros s1 s2 R Q. apply (reach_invariant cfg False Pre s1 s2); [|exact Q|exact R]. intros a c Ha P. now apply (prim_pre a). }
  destruct H as [st2 R|c f st1 st2 _ R1 _ _ _ R2]; [now apply G|].
  intros N. apply (G _ _ R2). unfold Pre. pose proof (record_frame_fields st1 f) as (-> & _). exact (G _ _ R1 N).
Qed.
Lemma fail_1006 st : Pre st -> exists st', fail_connection X cfg st 1006 = (st', None) /\ Pre st' /\ p_users st' = p_users st.
Proof.
  intros H. destruct (fail_connection X cfg st 1006) as [st' e] eqn:F.
  assert (e = None) as ->. { unfold fail_connection in F. cbn [Z.eqb Pos.eqb negb andb] in F. now apply pair_equal_spec in F as [_ <-]. }
  exists st'. split; [reflexivity|]. split.
  - assert (S : step X cfg st (LFail 1006) = Some st') by (cbn [step]; now rewrite F).
    eapply step_pre; [|exact S|exact H]. discriminate.
  - now apply fail_shape in F as (c & o & x & y & b & ->).
Qed.
End Moves.

Section Peers.
Context {E : Type} (X : ext_ops E) (cfg : config) (scfg : server_config E).
Implicit Types (p : peer E) (sv : server E) (st : conn E).

Definition ended p : bool := match h_pc p with HDone _ => true | _ => false end.
Definition PeerInv p : Prop :=
  Good cfg (h_conn p) /\ h_registered p = negb (ended p) /\
  match h_pc p with
  | HHandshake => Pre (h_conn p) /\ h_responses p = []
  | HReject i => Pre (h_conn p) /\ Waiter (h_conn p) i
  | HUser => p_state (h_conn p) <> Connecting
  | HClose i => p_state (h_conn p) <> Connecting /\ Closer cfg 1000 (h_conn p) i
  | HDone false => gone (h_conn p) /\ (not0 cfg -> p_state (h_conn p) <> Open)
  | HDone true => True
  end.

Lemma not_connecting st l st' : step X cfg st l = Some st' -> p_state st <> Connecting -> p_state st' <> Connecting.
Proof. intros H. rewrite !rank_Connecting. pose proof (rank_step X cfg _ _ _ H). lia. Qed.
Lemma Peer_own p l st : PeerInv p -> own_step l = true -> step X cfg (h_conn p) l = Some st ->
  PeerInv (Peer st (h_pc p) (h_registered p) (h_responses p)).
Proof.
  intros (G & R & C) Ho H. assert (Hl : l <> LOpen) by (intros ->; discriminate).
  split; [exact (Good_step X cfg _ _ _ G H)|]. split; [exact R|]. cbn [h_pc h_conn h_responses].
  destruct (h_pc p) as [|i| |i|[]].
  - destruct C as [C1 C2]. split; [|exact C2]. exact (step_pre X cfg _ _ _ Hl H C1).
  - destruct C as [C1 C2]. split; [exact (step_pre X cfg _ _ _ Hl H C1)|exact (Waiter_step X cfg _ _ _ _ Hl G H C2)].
  - exact (not_connecting _ _ _ H C).
  - destruct C as [C1 C2]. split; [exact (not_connecting _ _ _ H C1)|].
    refine (Closer_step X cfg 1000 _ _ _ i _ _ Hl G H C2). vm_compute. reflexivity.
  - exact Logic.I.
  - destruct C as [C1 C2]. split; [exact (gone_step X cfg _ _ _ G H C1)|]. intros Q. exact (step_not_open X cfg _ _ _ Hl H (C2 Q)).
Qed.

Lemma Good_start st c : Good cfg st -> Good cfg (start st c).
Proof. intros G. exact (Good_step X cfg st (LCall c) _ G eq_refl). Qed.
Lemma start_moves o st c : moves X cfg o st (start st c).
Proof. apply (moves_one X cfg o st (LCall c)); [discriminate|reflexivity]. Qed.
Lemma nth_start st st1 c : p_users st1 = p_users st -> nth_error (p_users (start st1 c)) (length (p_users st)) = Some (UStart c, false).
Proof. intros U. cbn [start p_users set_users]. rewrite U, nth_error_app2, Nat.sub_diag by lia. reflexivity. Qed.
Lemma Good_close_transport st : Good cfg st -> Good cfg (close_transport st).
Proof. intros G. exact (Good_step X cfg st LCloseTransport _ G eq_refl). Qed.
Lemma close_transport_moves o st : moves X cfg o st (close_transport st).
Proof. apply (moves_one X cfg o st LCloseTransport); [discriminate|reflexivity]. Qed.
Lemma fail_moves o st code : moves X cfg o st (fst (fail_connection X cfg st code)).
Proof. apply (moves_one X cfg o st (LFail code)); [discriminate|reflexivity]. Qed.
Lemma Good_fail st code : Good cfg st -> Good cfg (fst (fail_connection X cfg st code)).
Proof. intros G. exact (Good_step X cfg st (LFail code) _ G eq_refl). Qed.

Lemma h_raise_inv p st : Good cfg st -> (not0 cfg -> p_state st <> Open) -> PeerInv (h_raise p st).
Proof.
  intros G N. split; [exact (Good_close_transport _ G)|]. split; [reflexivity|]. cbn [h_raise h_end h_pc h_conn].
  split; [right; right; reflexivity|exact N].
Qed.
Lemma h_cancelled_inv p st : Good cfg st -> PeerInv (h_end p st true).
Proof. intros G. split; [exact G|]. split; [reflexivity|exact Logic.I]. Qed.
Lemma Pre_not_open st : Pre st -> p_state st <> Open.
Proof. intros [H|H]; congruence. Qed.
Lemma h_reject_inv p st status : Good cfg st -> Pre st -> h_registered p = true -> PeerInv (h_reject X cfg p st status).
Proof.
  intros G P R. destruct (fail_1006 X cfg st P) as (st' & F & P' & U). unfold h_reject.
  pose proof (Good_fail st 1006 G) as G'. rewrite F in G' |- *. cbn [fst] in G'.
  split; [exact (Good_start _ _ G')|]. split; [exact R|]. cbn [h_pc h_conn].
  split; [exact P'|]. exists (UStart CallWaitClosed), false. split; [now apply nth_start|exact Logic.I].
Qed.
Lemma h_handshake_inv p serving o : PeerInv p -> h_pc p = HHandshake -> PeerInv (h_handshake X cfg scfg p serving o).
Proof.
  intros (G & R & C) Hpc. rewrite Hpc in C. destruct C as [P Hr]. unfold ended in R. rewrite Hpc in R. cbn [negb] in R.
  unfold h_handshake. destruct o as [env data hook| |].
  - destruct (legacy_response _ _ _ _ _) as [[[status h] [body|]]|e].
    + now apply h_reject_inv.
    + set (exts := match read_http_request data with Ok _ => _ | Raise _ => _ end). clearbody exts. cbv zeta.
      change (p_state (set_exts exts (h_conn p))) with (p_state (h_conn p)).
      change (p_C (set_exts exts (h_conn p))) with (p_C (h_conn p)).
      assert (G' : Good cfg (set_exts exts (h_conn p))) by exact G.
      assert (J : PeerInv (h_reject X cfg (Peer (set_exts exts (h_conn p)) (h_pc p) (h_registered p) (h_responses p ++ [status]))
                             (set_exts exts (h_conn p)) 500)) by (now apply h_reject_inv).
      destruct (p_state (h_conn p)) eqn:S; try exact J. destruct (p_C (h_conn p)) eqn:PC; try exact J.
      assert (Q : step X cfg (set_exts exts (h_conn p)) LOpen = Some (connection_open (set_exts exts (h_conn p)))).
      { cbn [step]. change (p_state (set_exts exts (h_conn p))) with (p_state (h_conn p)).
        change (p_C (set_exts exts (h_conn p))) with (p_C (h_conn p)). now rewrite S, PC. }
      split; [exact (Good_step X cfg _ _ _ G' Q)|]. split; [exact R|]. cbn [h_pc h_conn].
      unfold connection_open. discriminate.
    + apply h_raise_inv; [exact G|]. intros _. now apply Pre_not_open.
  - apply h_raise_inv; [exact G|]. intros _. now apply Pre_not_open.
  - now apply h_cancelled_inv.
Qed.
Lemma h_user_inv p r : PeerInv p -> h_pc p = HUser -> PeerInv (h_user X cfg p r).
Proof.
  intros (G & R & C) Hpc. rewrite Hpc in C. unfold ended in R. rewrite Hpc in R. cbn [negb] in R.
  unfold h_user. destruct r.
  - split; [exact (Good_start _ _ G)|]. split; [exact R|]. cbn [h_pc h_conn]. split; [exact C|].
    exists (UStart (CallClose 1000 [])), false. split; [now apply nth_start|now left].
  - apply h_raise_inv.
    + destruct (p_state (h_conn p)); try exact G; apply (Good_fail _ _ G).
    + intros _. destruct (p_state (h_conn p)) eqn:S; try congruence.
      * destruct (fail_connection X cfg (h_conn p) 1011) as [st' e] eqn:F. cbn [fst]. now rewrite (fail_1011 X cfg _ _ _ F S).
      * apply (step_not_open X cfg (h_conn p) (LFail 1011)); [discriminate|reflexivity|congruence].
  - now apply h_cancelled_inv.
Qed.
Lemma h_resume_inv p p' : PeerInv p -> h_resume p = Some p' -> PeerInv p'.
Proof.
  intros (G & R & C). unfold h_resume. destruct (h_pc p) as [|i| |i|]; try discriminate.
  - destruct C as [P (pc & c & Hi & Hp)]. rewrite Hi. destruct pc as [| | | | | | | | | | | | | | | |r]; try discriminate.
    destruct r as [| | |e]; try contradiction.
    + intros H. apply some_inj in H as <-. split; [exact G|]. split; [reflexivity|]. cbn [h_end h_pc h_conn].
      split; [now left|]. intros _. now apply Pre_not_open.
    + destruct e; try contradiction. intros H. apply some_inj in H as <-. now apply h_cancelled_inv.
  - destruct C as [P (pc & c & Hi & Hp)]. rewrite Hi. destruct pc as [| | | | | | | | | | | | | | | |r]; try discriminate.
    destruct Hp as [Hp|[Hp|[Hp Ho]]]; [discriminate|..].
    + injection Hp as ->. intros H. apply some_inj in H as <-. now apply h_cancelled_inv.
    + destruct r as [| | |e]; try contradiction.
      * intros H. apply some_inj in H as <-. split; [exact G|]. split; [reflexivity|]. cbn [h_end h_pc h_conn].
        split; [|exact Ho]. cbn [close_pc] in Hp. destruct G as (_ & _ & F). unfold Ended in F. rewrite Hp in F.
        destruct F; [now left|right; now left].
      * destruct e; intros H; apply some_inj in H as <-; try (now apply h_cancelled_inv); now apply h_raise_inv.
Qed.
Lemma accepted_inv : PeerInv accepted.
Proof.
  split; [exact (Good_initial X cfg [])|]. split; [reflexivity|]. cbn [accepted h_pc h_conn]. split; [now left|reflexivity].
Qed.
Lemma going_away_inv p : PeerInv p -> PeerInv (going_away p).
Proof.
  intros I. unfold going_away. destruct (h_registered p) eqn:R; [|exact I]. rewrite <- R.
  exact (Peer_own p (LCall (CallClose 1001 [])) _ I eq_refl eq_refl).
Qed.

(** The handlers only move connections *)
Lemma h_reject_moves o p st status : moves X cfg o st (h_conn (h_reject X cfg p st status)).
Proof.
  unfold h_reject. pose proof (fail_moves o st 1006) as M. destruct (fail_connection X cfg st 1006) as [st' [e|]]; cbn [fst] in M.
  - cbn [h_raise h_end h_conn]. eapply moves_trans; [exact M|apply close_transport_moves].
  - cbn [h_conn]. eapply moves_trans; [exact M|apply start_moves].
Qed.
Lemma h_handshake_moves p (serving : bool) o : moves X cfg (serving = true) (h_conn p) (h_conn (h_handshake X cfg scfg p serving o)).
Proof.
  unfold h_handshake. destruct o as [env data hook| |].
  - destruct (legacy_response _ _ _ _ _) as [[[status h] [body|]]|e] eqn:L.
    + apply h_reject_moves.
    + set (exts := match read_http_request data with Ok _ => _ | Raise _ => _ end). clearbody exts. cbv zeta.
      assert (M0 : moves X cfg (serving = true) (h_conn p) (set_exts exts (h_conn p))) by (apply m_exts, m_refl).
      pose proof (moves_trans X cfg _ _ _ _ M0 (h_reject_moves _ (Peer (set_exts exts (h_conn p)) (h_pc p) (h_registered p) (h_responses p ++ [status])) _ 500)) as J.
      change (p_state (set_exts exts (h_conn p))) with (p_state (h_conn p)).
      change (p_C (set_exts exts (h_conn p))) with (p_C (h_conn p)).
      destruct (p_state (h_conn p)) eqn:S; try exact J. destruct (p_C (h_conn p)) eqn:PC; try exact J.
      eapply (m_step X cfg _ _ _ LOpen); [exact M0| |].
      * intros _. destruct serving; [reflexivity|exfalso]. unfold legacy_response in L.
        destruct (read_http_request data) as [r|e]; [|destruct (legacy_error e) as [x|]; cbn [rbind] in L; [destruct (legacy_reject env x) as [[[? ?] ?]|]; discriminate|discriminate]].
        unfold legacy_handshake in L. destruct hook as [x|e].
        -- destruct (legacy_reject _ _) as [[[? ?] ?]|]; discriminate.
        -- destruct (legacy_error e) as [x|]; cbn [rbind] in L; [destruct (legacy_reject env x) as [[[? ?] ?]|]; discriminate|discriminate].
      * cbn [step h_conn]. change (p_state (set_exts exts (h_conn p))) with (p_state (h_conn p)).
        change (p_C (set_exts exts (h_conn p))) with (p_C (h_conn p)). now rewrite S, PC.
    + apply close_transport_moves.
  - apply close_transport_moves.
  - apply m_refl.
Qed.
Lemma h_user_moves o p r : moves X cfg o (h_conn p) (h_conn (h_user X cfg p r)).
Proof.
  unfold h_user. destruct r; [apply start_moves| |apply m_refl]. cbn [h_raise h_end h_conn].
  destruct (p_state (h_conn p)); try apply close_transport_moves;
    (eapply moves_trans; [apply fail_moves|apply close_transport_moves]).
Qed.
Lemma h_resume_moves o p p' : h_resume p = Some p' -> moves X cfg o (h_conn p) (h_conn p').
Proof.
  assert (A : forall c, moves X cfg o (h_conn p) (h_conn (h_end p (h_conn p) c))) by (intros; apply m_refl).
  assert (B : moves X cfg o (h_conn p) (h_conn (h_raise p (h_conn p)))) by apply close_transport_moves.
  unfold h_resume. destruct (h_pc p) as [|i| |i|]; try discriminate;
    (destruct (nth_error _ _) as [[[| | | | | | | | | | | | | | | |[| | |[]]] ?]|]; try discriminate;
     intros H; apply some_inj in H as <-; auto).
Qed.
Lemma going_away_moves o p : moves X cfg o (h_conn p) (h_conn (going_away p)).
Proof. unfold going_away. destruct (h_registered p); [apply start_moves|apply m_refl]. Qed.

Lemma sstep_moves sv l sv' : sstep X cfg scfg sv l = Some sv' ->
  forall k p, nth_error (s_peers sv) k = Some p ->
  exists p', nth_error (s_peers sv') k = Some p' /\ moves X cfg (s_serving sv = true) (h_conn p) (h_conn p').
Proof.
  intros H k p Hk.
  assert (W : forall k0 f, with_peer sv k0 f = Some sv' ->
    (forall p1 p2, f p1 = Some p2 -> moves X cfg (s_serving sv = true) (h_conn p1) (h_conn p2)) ->
    exists p', nth_error (s_peers sv') k = Some p' /\ moves X cfg (s_serving sv = true) (h_conn p) (h_conn p')).
  { intros k0 f W M. unfold with_peer in W. destruct (nth_error (s_peers sv) k0) as [p0|] eqn:K0; [|discriminate].
    destruct (f p0) as [p1|] eqn:F; [|discriminate]. apply some_inj in W as <-. cbn [s_peers].
    destruct (Nat.eq_dec k k0) as [-> |N].
    - assert (p0 = p) as -> by congruence. exists p1. split; [|auto]. apply nth_error_replace_eq, nth_error_Some. congruence.
    - exists p. split; [|apply m_refl]. rewrite nth_error_replace_neq; auto. }
  assert (Same : nth_error (s_peers sv) k = nth_error (s_peers sv') k ->
    exists p', nth_error (s_peers sv') k = Some p' /\ moves X cfg (s_serving sv = true) (h_conn p) (h_conn p')).
  { intros S. exists p. split; [now rewrite <- S|apply m_refl]. }
  destruct l as [|k0 l|k0 o|k0 r|k0| |]; cbn [sstep] in H.
  - apply some_inj in H as <-. apply Same. cbn [s_peers]. rewrite nth_error_app1; [reflexivity|]. apply nth_error_Some. congruence.
  - destruct (own_step l) eqn:O; [|discriminate]. apply (W _ _ H). intros p1 p2 Q.
    destruct (step X cfg (h_conn p1) l) as [st|] eqn:S; [|discriminate]. apply some_inj in Q as <-.
    apply (moves_one X cfg _ _ l); [intros ->; discriminate|exact S].
  - apply (W _ _ H). intros p1 p2 Q. destruct (h_pc p1); try discriminate. apply some_inj in Q as <-. apply h_handshake_moves.
  - apply (W _ _ H). intros p1 p2 Q. destruct (h_pc p1); try discriminate. apply some_inj in Q as <-. apply h_user_moves.
  - apply (W _ _ H). intros p1 p2 Q. now apply h_resume_moves.
  - apply some_inj in H as <-. apply Same. now destruct (s_close sv).
  - unfold step_close, wait_handlers in H. destruct (s_close sv) as [| | | |cs|hs|]; try discriminate.
    + apply some_inj in H as <-. now apply Same.
    + apply some_inj in H as <-. now apply Same.
    + destruct (going_away_calls _ _) eqn:C.
      * apply some_inj in H as <-. apply Same. now destruct (registered _ _).
      * apply some_inj in H as <-. exists (going_away p). split; [|apply going_away_moves].
        cbn [s_peers]. rewrite nth_error_map, Hk. reflexivity.
    + destruct (forallb _ _); [|discriminate]. apply some_inj in H as <-. apply Same. now destruct (registered _ _).
    + destruct (forallb _ _); [|discriminate]. apply some_inj in H as <-. now apply Same.
Qed.
Lemma sexec_moves_down sv ls sv' : sexec X cfg scfg sv ls = Some sv' -> s_serving sv = false ->
  (forall sv1 l sv2, sstep X cfg scfg sv1 l = Some sv2 -> s_serving sv1 = false -> s_serving sv2 = false) ->
  forall k p, nth_error (s_peers sv) k = Some p ->
  exists p', nth_error (s_peers sv') k = Some p' /\ moves X cfg False (h_conn p) (h_conn p').
Proof.
  intros H S Keep. revert sv H S. induction ls as [|l ls IH]; intros sv H S k p Hk; cbn [sexec] in H.
  - apply some_inj in H as <-. exists p. split; [exact Hk|apply m_refl].
  - destruct (sstep X cfg scfg sv l) as [sv1|] eqn:S1; [|discriminate].
    destruct (sstep_moves _ _ _ S1 _ _ Hk) as (p1 & H1 & M1).
    destruct (IH _ H (Keep _ _ _ S1 S) _ _ H1) as (p2 & H2 & M2). exists p2. split; [exact H2|].
    eapply moves_trans; [|exact M2]. rewrite S in M1. clear - M1. induction M1; [apply m_refl| |now apply m_exts].
    eapply m_step; [exact IHM1| |eassumption]. intros Q. now apply H in Q.
Qed.
End Peers.

(** Invariants of servers *)
Section Servers.
Context {E : Type} (X : ext_ops E) (cfg : config) (scfg : server_config E).
Implicit Types (p : peer E) (sv : server E) (st : conn E).

Definition SInv sv : Prop :=
  Forall (PeerInv cfg) (s_peers sv) /\
  (s_serving sv = match s_close sv with SNone | SStart => true | _ => false end) /\
  (s_closed sv = match s_close sv with SDone => true | _ => false end).

Lemma Forall_replace {A} (P : A -> Prop) k x l : Forall P l -> P x -> Forall P (replace k x l).
Proof.
  intros F Px. revert k. induction F as [|y l Py F IH]; intros [|k]; cbn [replace]; constructor; auto.
Qed.
Lemma with_peer_inv sv k f sv' : SInv sv -> with_peer sv k f = Some sv' ->
  (forall p p', PeerInv cfg p -> f p = Some p' -> PeerInv cfg p') ->
  SInv sv' /\ s_close sv' = s_close sv /\ s_serving sv' = s_serving sv /\ s_closed sv' = s_closed sv /\
  exists p p', nth_error (s_peers sv) k = Some p /\ f p = Some p' /\ s_peers sv' = replace k p' (s_peers sv).
Proof.
  intros (F & S & C) H Q. unfold with_peer in H. destruct (nth_error (s_peers sv) k) as [p|] eqn:K; [|discriminate].
  destruct (f p) as [p'|] eqn:Hf; [|discriminate]. apply some_inj in H as <-. cbn [s_close s_serving s_closed s_peers].
  split; [|repeat split; eauto]. split; [|split; [exact S|exact C]]. cbn [s_peers].
  apply Forall_replace; [exact F|]. apply (Q p); [|exact Hf]. apply nth_error_In in K. rewrite Forall_forall in F. auto.
Qed.
Definition is_with_peer (l : slabel) : Prop := match l with SConn _ _ | SHandshake _ _ | SUserEnds _ _ | SResume _ => True | _ => False end.
Lemma with_peer_step sv l sv' : SInv sv -> sstep X cfg scfg sv l = Some sv' -> is_with_peer l ->
  SInv sv' /\ s_close sv' = s_close sv /\ s_serving sv' = s_serving sv /\ s_closed sv' = s_closed sv /\
  exists k p p', nth_error (s_peers sv) k = Some p /\ (h_registered p' = true -> h_registered p = true) /\ s_peers sv' = replace k p' (s_peers sv).
Proof.
  intros I H L.
  assert (R : forall p1 p2, PeerInv cfg p1 -> PeerInv cfg p2 -> (ended p1 = true -> ended p2 = true) -> h_registered p2 = true -> h_registered p1 = true).
  { intros p1 p2 (_ & R1 & _) (_ & R2 & _). rewrite R1, R2. destruct (ended p1), (ended p2); auto. }
  assert (W : forall k f, with_peer sv k f = Some sv' -> (forall p p', PeerInv cfg p -> f p = Some p' -> PeerInv cfg p' /\ (ended p = true -> ended p' = true)) ->
    SInv sv' /\ s_close sv' = s_close sv /\ s_serving sv' = s_serving sv /\ s_closed sv' = s_closed sv /\
    exists k p p', nth_error (s_peers sv) k = Some p /\ (h_registered p' = true -> h_registered p = true) /\ s_peers sv' = replace k p' (s_peers sv)).
  { intros k f W Q. destruct (with_peer_inv sv k f sv' I W) as (A & B & C & D & p & p' & K & F & P); [intros ? ? I1 F1; now apply (Q _ _ I1 F1)|].
    split; [exact A|]. split; [exact B|]. split; [exact C|]. split; [exact D|]. exists k, p, p'. split; [exact K|]. split; [|exact P].
    assert (I1 : PeerInv cfg p). { destruct I as (I & _). rewrite Forall_forall in I. apply I. now apply nth_error_In in K. }
    destruct (Q _ _ I1 F). now apply R. }
  destruct l as [|k0 l|k0 o|k0 r|k0| |]; cbn [sstep] in H; try contradiction.
  - destruct (own_step l) eqn:O; [|discriminate]. apply (W _ _ H). intros p1 p2 I1 Q.
    destruct (step X cfg (h_conn p1) l) as [st|] eqn:S; [|discriminate]. apply some_inj in Q as <-. split; [|auto].
    exact (Peer_own X cfg p1 l st I1 O S).
  - apply (W _ _ H). intros p1 p2 I1 Q. destruct (h_pc p1) eqn:Hpc; try discriminate. apply some_inj in Q as <-.
    split; [now apply h_handshake_inv|]. unfold ended at 1. now rewrite Hpc.
  - apply (W _ _ H). intros p1 p2 I1 Q. destruct (h_pc p1) eqn:Hpc; try discriminate. apply some_inj in Q as <-.
    split; [now apply h_user_inv|]. unfold ended at 1. now rewrite Hpc.
  - apply (W _ _ H). intros p1 p2 I1 Q. split; [now apply (h_resume_inv X cfg p1)|]. intros N. unfold ended, h_resume in *.
    destruct (h_pc p1); try discriminate.
Qed.
Lemma SInv_step sv l sv' : SInv sv -> sstep X cfg scfg sv l = Some sv' -> SInv sv'.
Proof.
  intros I H. destruct l as [|k0 l|k0 o|k0 r|k0| |]; try (eapply with_peer_step; [exact I|exact H|exact Logic.I]);
    destruct I as (F & S & C); cbn [sstep] in H.
  - apply some_inj in H as <-. split; [|split; [exact S|exact C]]. cbn [s_peers]. apply Forall_app. split; [exact F|].
    constructor; [apply (accepted_inv X)|constructor].
  - apply some_inj in H as <-. unfold SInv. destruct (s_close sv) eqn:Q; cbn [s_peers s_serving s_closed s_close]; try rewrite Q;
      repeat split; auto.
  - unfold step_close, wait_handlers in H. destruct (s_close sv) as [| | | |cs|hs|] eqn:Q; try discriminate.
    + apply some_inj in H as <-. unfold SInv. cbn [s_peers s_serving s_closed s_close]. repeat split; auto.
    + apply some_inj in H as <-. unfold SInv. cbn [s_peers s_serving s_closed s_close]. repeat split; auto.
    + destruct (going_away_calls _ _) eqn:G.
      * apply some_inj in H as <-. destruct (registered _ _); unfold SInv; cbn [s_peers s_serving s_closed s_close]; repeat split; auto.
      * apply some_inj in H as <-. unfold SInv; cbn [s_peers s_serving s_closed s_close]. split; [|split; auto].
        rewrite Forall_map. eapply Forall_impl; [|exact F]. intros q. apply (going_away_inv X).
    + destruct (forallb _ _); [|discriminate]. apply some_inj in H as <-.
      destruct (registered _ _); unfold SInv; cbn [s_peers s_serving s_closed s_close]; repeat split; auto.
    + destruct (forallb _ _); [|discriminate]. apply some_inj in H as <-.
      unfold SInv; cbn [s_peers s_serving s_closed s_close]; repeat split; auto.
Qed.
Lemma SInv_initial : SInv sinitial.
Proof. repeat split. constructor. Qed.
Lemma SInv_sexec sv ls sv' : SInv sv -> sexec X cfg scfg sv ls = Some sv' -> SInv sv'.
Proof.
  revert sv. induction ls as [|l ls IH]; intros sv I H; cbn [sexec] in H.
  - now apply some_inj in H as <-.
  - destruct (sstep X cfg scfg sv l) as [sv1|] eqn:S; [|discriminate]. apply (IH sv1); [|exact H]. eapply SInv_step; eassumption.
Qed.
Lemma sexec_app sv ls1 ls2 : sexec X cfg scfg sv (ls1 ++ ls2) =
  match sexec X cfg scfg sv ls1 with Some sv1 => sexec X cfg scfg sv1 ls2 | None => None end.
Proof. revert sv. induction ls1 as [|l ls1 IH]; intros sv; cbn [app sexec]; [reflexivity|]. destruct (sstep _ _ _ sv l); auto. Qed.
Lemma serving_down sv l sv' : sstep X cfg scfg sv l = Some sv' -> s_serving sv = false -> s_serving sv' = false.
Proof.
  intros H S.
  assert (W : forall k f, with_peer sv k f = Some sv' -> s_serving sv' = false).
  { intros k f W. unfold with_peer in W. destruct (nth_error _ _) as [p|]; [|discriminate]. destruct (f p); [|discriminate].
    now apply some_inj in W as <-. }
  destruct l as [|k0 l|k0 o|k0 r|k0| |]; cbn [sstep] in H; eauto.
  - now apply some_inj in H as <-.
  - destruct (own_step l); [eauto|discriminate].
  - apply some_inj in H as <-. now destruct (s_close sv).
  - unfold step_close, wait_handlers in H. destruct (s_close sv) as [| | | |cs|hs|]; try discriminate;
      try (destruct (going_away_calls _ _)); try (destruct (forallb _ _); [|discriminate]); apply some_inj in H as <-; try exact S; try reflexivity;
      destruct (registered _ _); exact S.
Qed.

(** Which handlers the closing task waits for *)
Lemma registered_spec n l k : In k (registered n l) <-> (n <= k)%nat /\ exists p : peer E, nth_error l (k - n) = Some p /\ h_registered p = true.
Proof.
  revert n. induction l as [|p l IH]; intros n; cbn [registered].
  - split; [contradiction|]. intros (_ & q & Hq & _). destruct (k - n)%nat; discriminate.
  - assert (Q : In k (registered (Datatypes.S n) l) <-> (Datatypes.S n <= k)%nat /\ exists q : peer E, nth_error (p :: l) (k - n) = Some q /\ h_registered q = true).
    { rewrite IH. split; intros (H1 & q & H2 & H3); (split; [exact H1|]); exists q; (split; [|exact H3]);
        replace (k - n)%nat with (Datatypes.S (k - Datatypes.S n)) in * by lia; exact H2. }
    destruct (h_registered p) eqn:R; cbn [In]; rewrite Q.
    + split.
      * intros [<- |[H1 H2]]; [|split; [lia|exact H2]]. split; [lia|]. exists p. now rewrite Nat.sub_diag.
      * intros [H1 H2]. destruct (Nat.eq_dec n k) as [H|H]; [now left|right]. split; [lia|exact H2].
    + split; intros [H1 H2]; (split; [|exact H2]); [lia|]. destruct (Nat.eq_dec n k) as [-> |H]; [|lia].
      destruct H2 as (q & H2 & H3). rewrite Nat.sub_diag in H2. cbn in H2. apply some_inj in H2 as <-. congruence.
Qed.
Definition Cov sv : Prop :=
  match s_close sv with
  | SWaitHandlers l => forall k p, nth_error (s_peers sv) k = Some p -> h_registered p = true -> In k l
  | SDone => forall k p, nth_error (s_peers sv) k = Some p -> h_registered p = false
  | _ => True
  end.
Lemma wait_handlers_cov sv : Cov (wait_handlers sv).
Proof.
  unfold wait_handlers. assert (Q : forall k p, nth_error (s_peers sv) k = Some p -> h_registered p = true -> In k (registered 0 (s_peers sv))).
  { intros k p K R. apply registered_spec. split; [lia|]. exists p. now rewrite Nat.sub_0_r. }
  destruct (registered 0 (s_peers sv)); unfold Cov; cbn [s_close s_peers].
  - intros k p K. destruct (h_registered p) eqn:R; [|reflexivity]. destruct (Q k p K R).
  - exact Q.
Qed.
Lemma Cov_step sv l sv' : SInv sv -> Cov sv -> sstep X cfg scfg sv l = Some sv' ->
  ~ (l = SAccept /\ match s_close sv with SWaitHandlers _ | SDone => True | _ => False end) -> Cov sv'.
Proof.
  intros I C H N.
  assert (W : is_with_peer l -> Cov sv').
  { intros L. destruct (with_peer_step _ _ _ I H L) as (_ & Q & _ & _ & k0 & p0 & p0' & K0 & R0 & P).
    assert (J : forall k p, nth_error (s_peers sv') k = Some p -> exists p1, nth_error (s_peers sv) k = Some p1 /\ (h_registered p = true -> h_registered p1 = true)).
    { intros k p. rewrite P. destruct (Nat.eq_dec k k0) as [-> |Hn].
      - rewrite nth_error_replace_eq by (apply nth_error_Some; congruence). intros Q0. apply some_inj in Q0 as <-. eauto.
      - rewrite nth_error_replace_neq by auto. intros Q0. eauto. }
    unfold Cov in *. rewrite Q. destruct (s_close sv); auto; intros k p K.
    - intros R. destruct (J k p K) as (p1 & K1 & R1). eauto.
    - destruct (J k p K) as (p1 & K1 & R1). specialize (C k p1 K1). destruct (h_registered p); [|reflexivity]. now rewrite R1 in C. }
  destruct l as [|k0 l|k0 o|k0 r|k0| |]; try (apply W; exact Logic.I); clear W; cbn [sstep] in H.
  - apply some_inj in H as <-. unfold Cov in *. cbn [s_close s_peers]. destruct (s_close sv); auto; destruct N; auto.
  - apply some_inj in H as <-. unfold Cov in *. destruct (s_close sv) eqn:Q; cbn [s_close s_peers]; try rewrite Q; auto.
  - unfold step_close in H. destruct (s_close sv) as [| | | |cs|hs|] eqn:Q; try discriminate.
    + now apply some_inj in H as <-.
    + now apply some_inj in H as <-.
    + destruct (going_away_calls _ _); apply some_inj in H as <-; [apply wait_handlers_cov|exact Logic.I].
    + destruct (forallb _ _); [|discriminate]. apply some_inj in H as <-. apply wait_handlers_cov.
    + destruct (forallb (handler_done sv) hs) eqn:D; [|discriminate]. apply some_inj in H as <-.
      unfold Cov in C |- *. rewrite Q in C. cbn [s_close s_peers]. intros k p K. destruct (h_registered p) eqn:R; [|reflexivity].
      specialize (C k p K R). rewrite forallb_forall in D. specialize (D k C). unfold handler_done in D. rewrite K in D.
      destruct I as (F & _). rewrite Forall_forall in F. destruct (F p (nth_error_In _ _ K)) as (_ & R' & _).
      unfold ended in R'. destruct (h_pc p); try discriminate. rewrite R in R'. discriminate.
Qed.
Lemma Cov_sexec sv ls sv' : SInv sv -> Cov sv -> sexec X cfg scfg sv ls = Some sv' ->
  (forall ls1 l ls2 sv1, ls = ls1 ++ l :: ls2 -> sexec X cfg scfg sv ls1 = Some sv1 ->
     ~ (l = SAccept /\ match s_close sv1 with SWaitHandlers _ | SDone => True | _ => False end)) -> Cov sv'.
Proof.
  revert sv. induction ls as [|l ls IH]; intros sv I C H N; cbn [sexec] in H.
  - now apply some_inj in H as <-.
  - destruct (sstep X cfg scfg sv l) as [sv1|] eqn:S; [|discriminate].
    apply (IH sv1); [eapply SInv_step; eassumption| |exact H|].
    + eapply Cov_step; [exact I|exact C|exact S|]. exact (N [] l ls sv eq_refl eq_refl).
    + intros ls1 l1 ls2 sv2 -> Q. apply (N (l :: ls1) l1 ls2 sv2 eq_refl). cbn [sexec]. now rewrite S.
Qed.

(** close(1001) *)
Lemma done_step st l st' i r c : Good cfg st -> step X cfg st l = Some st' ->
  nth_error (p_users st) i = Some (UDone r, c) -> exists c', nth_error (p_users st') i = Some (UDone r, c').
Proof.
  intros (_ & ((Wt & _) & _)) H Hi. destruct (user_dec i l) as [[a ->]|N].
  - cbn [step] in H. unfold step_user in H. rewrite Hi in H. discriminate.
  - destruct (step_other_user X cfg _ _ _ _ _ _ Wt N H Hi) as (c' & Hi' & _). eauto.
Qed.
Lemma done_moves o st st' i r c : moves X cfg o st st' -> Good cfg st ->
  nth_error (p_users st) i = Some (UDone r, c) -> exists c', nth_error (p_users st') i = Some (UDone r, c').
Proof.
  intros M G H. induction M; [eauto| |exact IHM]. destruct IHM as (c' & IHM).
  eapply done_step; [|eassumption|exact IHM]. eapply Good_moves; eassumption.
Qed.
Lemma peer_inv sv k p : SInv sv -> nth_error (s_peers sv) k = Some p -> PeerInv cfg p.
Proof. intros (F & _) K. rewrite Forall_forall in F. apply F. now apply nth_error_In in K. Qed.
Lemma call_done_step sv l sv' x : SInv sv -> sstep X cfg scfg sv l = Some sv' -> call_done sv x = true -> call_done sv' x = true.
Proof.
  intros I H C. unfold call_done in *. destruct (nth_error (s_peers sv) (fst x)) as [p|] eqn:K; [|discriminate].
  destruct (nth_error (p_users (h_conn p)) (snd x)) as [[[| | | | | | | | | | | | | | | |r] c]|] eqn:U; try discriminate.
  destruct (sstep_moves X cfg scfg _ _ _ H _ _ K) as (p' & K' & M). rewrite K'.
  destruct (peer_inv _ _ _ I K) as (G & _). destruct (done_moves _ _ _ _ _ _ M G U) as (c' & ->). reflexivity.
Qed.
Lemma wait_close_sexec sv ls sv' cs : SInv sv -> sexec X cfg scfg sv ls = Some sv' -> s_close sv = SWaitClose cs ->
  s_close sv' = SWaitClose cs \/ Forall (fun x => call_done sv' x = true) cs.
Proof.
  intros I H Q. assert (D : s_close sv = SWaitClose cs \/ Forall (fun x => call_done sv x = true) cs) by now left.
  clear Q. revert sv I H D. induction ls as [|l ls IH]; intros sv I H D; cbn [sexec] in H.
  - now apply some_inj in H as <-.
  - destruct (sstep X cfg scfg sv l) as [sv1|] eqn:S; [|discriminate].
    apply (IH sv1); [eapply SInv_step; eassumption|exact H|].
    assert (St : Forall (fun x => call_done sv x = true) cs -> Forall (fun x => call_done sv1 x = true) cs).
    { apply Forall_impl. intros x. now apply (call_done_step _ _ _ _ I S). }
    destruct D as [D|D]; [|auto]. clear IH H.
    destruct l as [|k0 l|k0 o|k0 r|k0| |];
      try (left; destruct (with_peer_step _ _ _ I S Logic.I) as (_ & -> & _); exact D); cbn [sstep] in S.
    + apply some_inj in S as <-. now left.
    + apply some_inj in S as <-. rewrite D. now left.
    + unfold step_close in S. rewrite D in S. destruct (forallb (call_done sv) cs) eqn:B; [|discriminate].
      right. apply St. apply Forall_forall. now apply forallb_forall.
Qed.
Lemma going_away_calls_spec n l k p : nth_error l k = Some p -> h_registered p = true ->
  In ((n + k)%nat, length (p_users (h_conn p))) (going_away_calls n l).
Proof.
  revert n k. induction l as [|q l IH]; intros n [|k] K R; try discriminate; cbn [going_away_calls].
  - apply some_inj in K as ->. rewrite R, Nat.add_0_r. now left.
  - specialize (IH (Datatypes.S n) k K R). replace (n + Datatypes.S k)%nat with (Datatypes.S n + k)%nat by lia.
    destruct (h_registered q); [now right|exact IH].
Qed.

Lemma replace_length {A} k (x : A) l : length (replace k x l) = length l.
Proof. revert k. induction l as [|y l IH]; intros [|k]; cbn [replace length]; auto. Qed.
Lemma sstep_peers sv l sv' : sstep X cfg scfg sv l = Some sv' ->
  s_peers sv' = s_peers sv ++ [accepted] \/ length (s_peers sv') = length (s_peers sv).
Proof.
  intros H.
  assert (W : forall k f, with_peer sv k f = Some sv' -> length (s_peers sv') = length (s_peers sv)).
  { intros k f W. unfold with_peer in W. destruct (nth_error _ _) as [p|]; [|discriminate]. destruct (f p); [|discriminate].
    apply some_inj in W as <-. apply replace_length. }
  destruct l as [|k0 l|k0 o|k0 r|k0| |]; cbn [sstep] in H; eauto.
  - apply some_inj in H as <-. now left.
  - destruct (own_step l); [eauto|discriminate].
  - apply some_inj in H as <-. right. now destruct (s_close sv).
  - right. unfold step_close, wait_handlers in H. destruct (s_close sv) as [| | | |cs|hs|]; try discriminate;
      try (destruct (going_away_calls _ _)); try (destruct (forallb _ _); [|discriminate]); apply some_inj in H as <-; try reflexivity;
      try (apply map_length); now destruct (registered _ _).
Qed.
Lemma sstep_back sv l sv' k p' : sstep X cfg scfg sv l = Some sv' -> nth_error (s_peers sv') k = Some p' ->
  p' = accepted \/ exists p, nth_error (s_peers sv) k = Some p /\ moves X cfg (s_serving sv = true) (h_conn p) (h_conn p').
Proof.
  intros H K. destruct (nth_error (s_peers sv) k) as [p|] eqn:K0.
  - right. exists p. split; [reflexivity|]. destruct (sstep_moves X cfg scfg _ _ _ H _ _ K0) as (p1 & K1 & M). congruence.
  - left. apply nth_error_None in K0. assert (Q : (k < length (s_peers sv'))%nat) by (apply nth_error_Some; congruence).
    destruct (sstep_peers _ _ _ H) as [P|P]; [|lia]. rewrite P, app_length in Q. cbn [length] in Q.
    rewrite P, nth_error_app2 in K by lia. replace (k - length (s_peers sv))%nat with O in K by lia.
    now apply some_inj in K as <-.
Qed.
Lemma open_down sv ls sv' k p' : sexec X cfg scfg sv ls = Some sv' -> s_serving sv = false ->
  nth_error (s_peers sv') k = Some p' -> p_state (h_conn p') = Open ->
  exists p, nth_error (s_peers sv) k = Some p /\ p_state (h_conn p) = Open.
Proof.
  intros H. revert sv H. induction ls as [|l ls IH]; intros sv H S K O; cbn [sexec] in H.
  - apply some_inj in H as <-. eauto.
  - destruct (sstep X cfg scfg sv l) as [sv1|] eqn:S1; [|discriminate].
    destruct (IH _ H (serving_down _ _ _ S1 S) K O) as (p1 & K1 & O1).
    destruct (sstep_back _ _ _ _ _ S1 K1) as [-> |(p & K0 & M)]; [discriminate|].
    exists p. split; [exact K0|]. destruct (p_state (h_conn p)) eqn:Q; try reflexivity; exfalso;
      (assert (N : p_state (h_conn p) <> Open) by congruence; revert O1; rewrite S in M;
       apply (not_open_moves X cfg (h_conn p)); [|exact N]; clear - M; induction M; [apply m_refl| |now apply m_exts];
       eapply m_step; [exact IHM| |eassumption]; intros q; now apply H in q).
Qed.
End Servers.
