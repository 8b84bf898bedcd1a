(* Properties of the closing handshake with the asyncio API (C66-C68). *)
From Verif Require Import Base.Prelude Base.PreludeFacts Model.Streams Model.Frames
  Model.LegacyFraming Model.LegacyProtocol Spec.Rfc6455 Spec.Messages Spec.Asyncio
  Proofs.LegacyPrims Proofs.LegacyFields Proofs.LegacyShapes Proofs.LegacyUsers Proofs.LegacyClose
  Proofs.LegacyQueue Proofs.LegacyMessages Proofs.LegacyFragments Proofs.LegacyTiming Proofs.LegacyWriters
  Proofs.LegacySend
  Properties.FrameCodec Properties.AsyncioState.
Local Open Scope N_scope.

(* ---- C66 ---- *)

(* close() is called when the clock says t0.  Later than 4 (server) or 5 (client) times close_timeout,
   plus the time A that the transport takes to report that it was aborted, it's over.  This needs the
   event loop to run tasks which can run, and timeouts which expire, before it lets time pass. If the
   transport takes longer than close_timeout to report, close() doesn't wait for it. *)
Theorem C66_close_terminates :
  forall E (X : ext_ops E) cfg exts before code reason after st1 st T A,
    c_close_timeout cfg = Some T ->
    execution X cfg exts before st1 ->
    execution X cfg exts (before ++ LCall (CallClose code reason) :: after) st ->
    punctual X cfg A (initial exts) (before ++ LCall (CallClose code reason) :: after) ->
    p_now st1 + (if c_client cfg then 5 else 4) * T + N.min A T < p_now st ->
    exists r c, nth_error (p_users st) (length (p_users st1)) = Some (UDone r, c).
Proof.
  intros E X cfg exts before code reason after st1 st T A HT H1 H P L. unfold execution in *.
  pose proof (proj1 (punctual_app X cfg A _ before _ st1 H1) P) as [P1 P2].
  rewrite exec_app, H1 in H. cbn [exec step] in H. cbn [punctual step] in P2. destruct P2 as [_ P2].
  pose proof (Recv_exec X cfg exts before st1 H1) as [B1 R1].
  assert (Tm : Timed cfg T A (p_now st1) (length (p_users st1)) st1).
  { apply (Timed_before X cfg T A (p_now st1) HT (length (p_users st1)) (initial exts) before); auto.
    - apply (Base_exec X cfg exts []). reflexivity.
    - apply (Recv_exec X cfg exts []). reflexivity.
    - split; [split; [discriminate|exact Logic.I]|]. unfold Uw. cbn [p_users initial].
      now destruct (length (p_users st1)). }
  set (st2 := set_users (p_users st1 ++ [(UStart (CallClose code reason), false)]) st1) in *.
  assert (S2 : step X cfg st1 (LCall (CallClose code reason)) = Some st2) by reflexivity.
  pose proof (Base_step X cfg _ _ _ B1 S2) as B2. pose proof (Recv_step X cfg _ _ _ B1 R1 S2) as R2.
  assert (Tm2 : Timed cfg T A (p_now st1) (length (p_users st1)) st2).
  { destruct R1 as (W & _).
    apply (Timed_step X cfg T A (p_now st1) HT (length (p_users st1)) st1 (LCall (CallClose code reason))); auto.
    - discriminate.
    - intros c Q _. injection Q as <-. split; [|reflexivity]. now exists code, reason. }
  assert (Li : (length (p_users st1) < length (p_users st2))%nat)
    by (cbn [st2 p_users set_users]; rewrite app_length; cbn [length]; lia).
  pose proof (Timed_after X cfg T A (p_now st1) HT (length (p_users st1)) st2 after st B2 R2 P2 H Li Tm2) as Tm3.
  pose proof (exec_length X cfg _ _ _ B2 R2 H) as Le.
  destruct (nth_error (p_users st) (length (p_users st1))) as [[pc c]|] eqn:Hi; [|apply nth_error_None in Hi; lia].
  assert (D : (exists r, pc = UDone r) \/ (forall r, pc <> UDone r)).
  { destruct pc; try (right; discriminate). left. now exists r. }
  destruct D as [(r & ->)|D]; [now exists r, c|].
  exfalso. pose proof (Uw_bound cfg T A (p_now st1) (length (p_users st1)) st pc c Hi D Tm3) as Q.
  unfold waits in Q. lia.
Qed.

(* Whether an execution is punctual, when time passes one unit at a time *)
Definition ready_b {E} (X : ext_ops E) cfg (st : conn E) : bool :=
  existsb (fun l => match step X cfg st l with Some _ => true | None => false end)
    (LT Go :: LC Go :: LC Timeout ::
     flat_map (fun i => [LUser i Go; LUser i Timeout]) (seq 0 (length (p_users st)))).
Fixpoint punctual_b {E} (X : ext_ops E) cfg (A : N) (st : conn E) (ls : list label) : bool :=
  match ls with
  | [] => true
  | l :: ls =>
      match l with
      | LTick d => (d =? 1) && negb (ready_b X cfg (set_now (p_now st + 0) st)) &&
          match p_aborted st, p_lost st with Some ta, None => p_now st + d <=? ta + A | _, _ => true end
      | _ => true
      end &&
      match step X cfg st l with Some st' => punctual_b X cfg A st' ls | None => false end
  end.
Lemma ready_b_sound {E} (X : ext_ops E) cfg (st : conn E) : ready_b X cfg st = false -> ~ ready X cfg st.
Proof.
  intros H (l & Hl & S1). apply Bool.not_true_iff_false in H. apply H. apply existsb_exists. exists l.
  split; [|destruct (step X cfg st l); congruence].
  assert (U : forall i, (exists a, step X cfg st (LUser i a) <> None) -> In i (seq 0 (length (p_users st)))).
  { intros i (a & Q). apply in_seq. cbn [step] in Q. unfold step_user in Q.
    destruct (nth_error (p_users st) i) eqn:Hi; [|contradiction]. split; [lia|]. apply nth_error_Some. congruence. }
  destruct Hl as [-> |[-> |[-> |[(i & ->)|(i & ->)]]]]; [now left|right; now left|do 2 right; now left|..];
    do 3 right; apply in_flat_map; exists i; (split; [apply U; eauto|cbn; tauto]).
Qed.
Lemma punctual_b_sound {E} (X : ext_ops E) cfg A ls : forall (st : conn E),
  punctual_b X cfg A st ls = true -> punctual X cfg A st ls.
Proof.
  induction ls as [|l ls IH]; cbn [punctual_b punctual]; intros st H; [exact Logic.I|].
  apply andb_prop in H as [H1 H2]. split.
  - intros d ->. apply andb_prop in H1 as [H1 H3]. apply andb_prop in H1 as [H1 H4].
    apply N.eqb_eq in H1. subst d. apply Bool.negb_true_iff, ready_b_sound in H4. split.
    + intros x Hx. replace x with 0 by lia. exact H4.
    + intros ta Q1 Q2. rewrite Q1, Q2 in H3. now apply N.leb_le.
  - destruct (step X cfg st l); [now apply IH|discriminate].
Qed.

(* A peer which never answers, and a transport which never closes.  The bound is reached: at the end,
   5 times close_timeout after the call, plus the time to report the abort, close() isn't over. *)
Definition ex_closing : config := {|
  c_client := true; c_max_size := Some 100%Z; c_max_queue := Some 1; c_close_timeout := Some 3;
  c_ping_interval := None; c_ping_timeout := None; c_legacy_recv := false;
  c_can_write_eof := true; c_key := fun n => bs [1; 2; 3; 4] |}.
Definition tick3 : list label := [LTick 1; LTick 1; LTick 1].
Definition ex_unresponsive : list label :=
  [LUser 0 Go] ++ tick3 ++ [LUser 0 DrainOk] ++ tick3 ++ [LUser 0 Timeout; LT Go; LUser 0 Go; LC Go] ++
  tick3 ++ [LC Timeout] ++ tick3 ++ [LC Timeout] ++ tick3 ++ [LC Timeout; LTick 1; LTick 1].
Example C66_applies :
  c_close_timeout ex_closing = Some 3 /\
  punctual no_ext ex_closing 2 (initial []) ([LOpen; LC Go] ++ LCall (CallClose 1000 []) :: ex_unresponsive) /\
  exists st, execution no_ext ex_closing [] ([LOpen; LC Go] ++ LCall (CallClose 1000 []) :: ex_unresponsive) st /\
    (p_now st =? 0 + 5 * 3 + N.min 2 3) &&
    match nth_error (p_users st) 0 with Some (UCloseC _, false) => true | _ => false end = true.
Proof.
  split; [reflexivity|]. split; [apply punctual_b_sound; vm_compute; reflexivity|].
  apply by_executing. vm_compute. reflexivity.
Qed.
(* Then connection_lost is called, close() returns, and time goes on. *)
Example C66_applies_done :
  exists st, execution no_ext ex_closing [] ([LOpen; LC Go] ++ LCall (CallClose 1000 []) :: ex_unresponsive ++
      [LLost None true; LC Go; LUser 0 Go; LTick 1]) st /\
    (0 + 5 * 3 + N.min 2 3 <? p_now st) &&
    match nth_error (p_users st) 0 with Some (UDone RNone, false) => true | _ => false end = true.
Proof. apply by_executing. vm_compute. reflexivity. Qed.
Example C66_applies_punctual :
  punctual no_ext ex_closing 2 (initial []) ([LOpen; LC Go] ++ LCall (CallClose 1000 []) :: ex_unresponsive ++
      [LLost None true; LC Go; LUser 0 Go; LTick 1]).
Proof. apply punctual_b_sound. vm_compute. reflexivity. Qed.

(* ---- C67 ---- *)

(* Time passes, the peer sends more data, and tasks run as long as they don't wait: everything but
   the timeout of close(), cancellation, other calls, and the loss of the TCP connection. *)
Definition no_timeout (l : label) : Prop :=
  match l with
  | LData _ | LEof | LTick _ | LT _ | LK _ | LC _ | LUser _ Go | LUser _ (GoRand _) | LUser _ DrainOk => True
  | _ => False
  end.

(* close() is called, then a ping arrives, then the answer of the peer to the close frame. *)
Definition ex_ping_close : list label :=
  [LOpen; LC Go; LK Go; LCall (CallClose 1000 []); LUser 0 Go; LUser 0 DrainOk; LData (bs [137; 0]);
   LData (bs [136; 2; 3; 232]); LT Go].

(* transfer_data waits for close_connection, which waits for transfer_data; so does close(). *)
Definition stuck {E} (st : conn E) : Prop :=
  (exists c, p_T st = TPongEnsure c) /\ p_Tcancel st = false /\ p_C st = CWaitT /\ p_K st = KDone /\
  p_close st = None /\ p_lost st = None /\ exists d t, p_users st = [(UCloseT d t, false)].
Definition stuck_b (st : conn Empty_set) : bool :=
  match p_T st, p_C st, p_K st, p_close st, p_lost st, p_users st with
  | TPongEnsure _, CWaitT, KDone, None, None, [(UCloseT _ _, false)] => negb (p_Tcancel st)
  | _, _, _, _, _, _ => false
  end.
Lemma stuck_b_sound st : stuck_b st = true -> stuck st.
Proof.
  unfold stuck_b, stuck. destruct (p_T st); try discriminate. destruct (p_C st); try discriminate.
  destruct (p_K st); try discriminate. destruct (p_close st); try discriminate.
  destruct (p_lost st); try discriminate. destruct (p_users st) as [|[[] []] []]; try discriminate.
  intros H. apply Bool.negb_true_iff in H. split; [now exists c|]. do 5 (split; [easy|]). now exists d, t0.
Qed.
Lemma stuck_step {E} (X : ext_ops E) cfg (st : conn E) l st' :
  stuck st -> no_timeout l -> step X cfg st l = Some st' -> stuck st'.
Proof.
  intros ((c & S1) & S2 & S3 & S4 & S5 & S6 & d & t & S7) Hl H.
  destruct l; try contradiction; cbn [step] in H.
  - destruct (r_eof _); [discriminate|]. apply some_inj in H as <-.
    split; [now exists c|]. do 5 (split; [assumption|]). now exists d, t.
  - destruct (r_eof _); [discriminate|]. apply some_inj in H as <-.
    split; [now exists c|]. do 5 (split; [assumption|]). now exists d, t.
  - apply some_inj in H as <-. split; [now exists c|]. do 5 (split; [assumption|]). now exists d, t.
  - exfalso. unfold step_T in H. rewrite S1, S2 in H. unfold ensure_open_end in H. rewrite S3 in H.
    destruct a; discriminate.
  - unfold step_K in H. now rewrite S4 in H.
  - exfalso. unfold step_C in H. rewrite S3, S1 in H. destruct a; discriminate.
  - exfalso. unfold step_user in H. rewrite S7 in H. destruct i as [|[|]]; try discriminate.
    cbn [nth_error] in H. unfold step_call in H. rewrite S1 in H. destruct a; try contradiction; discriminate.
Qed.

(* The closing handshake doesn't complete, although the peer answered: the close frame isn't
   processed, and close() isn't over, as long as it doesn't time out. *)
Theorem C67_ping_during_close_refuted :
  forall after st,
    Forall no_timeout after ->
    execution no_ext ex_closing [] (ex_ping_close ++ after) st ->
    p_close st = None /\ p_state st <> Closed /\ forall r c, nth_error (p_users st) 0 <> Some (UDone r, c).
Proof.
  intros after st Hf H. unfold execution in H. rewrite exec_app in H.
  assert (G : exists st0, exec no_ext ex_closing (initial []) ex_ping_close = Some st0 /\ stuck st0).
  { destruct (by_executing ex_closing ex_ping_close stuck_b) as (st0 & G1 & G2); [vm_compute; reflexivity|].
    exists st0. split; [exact G1|]. now apply stuck_b_sound. }
  destruct G as (st0 & G & S0). rewrite G in H.
  assert (Q : stuck st).
  { clear G. revert st0 H S0. induction Hf as [|l after Hl Hf IH]; cbn [exec]; intros st0 H S0.
    - now apply some_inj in H as <-.
    - destruct (step no_ext ex_closing st0 l) as [st1|] eqn:E1; [|discriminate].
      apply (IH st1 H). now apply (stuck_step no_ext ex_closing st0 l). }
  destruct Q as (_ & _ & _ & _ & Q1 & Q2 & d & t & Q3). split; [exact Q1|]. split; [|rewrite Q3; discriminate].
  intros Q. assert (L : Lost st).
  { apply (Base_exec no_ext ex_closing [] (ex_ping_close ++ after)). now rewrite exec_app, G. }
  apply L in Q. contradiction.
Qed.
(* Such executions exist. *)
Example C67_refuted_applies :
  exists st, execution no_ext ex_closing [] (ex_ping_close ++ [LTick 2; LData (bs [129; 0])]) st /\
    match p_T st with TPongEnsure _ => true | _ => false end = true.
Proof. apply by_executing. vm_compute. reflexivity. Qed.
(* Without the ping, the closing handshake completes at once. *)
Example C67_no_ping :
  exists st, execution no_ext ex_closing []
    ([LOpen; LC Go; LK Go; LCall (CallClose 1000 []); LUser 0 Go; LUser 0 DrainOk; LData (bs [136; 2; 3; 232]); LT Go] ++
     [LC Go; LLost None true; LC Go; LUser 0 Go; LUser 0 Go]) st /\
    (p_now st =? 0) && match p_close st, p_users st with Some (1000%Z, []), [(UDone RNone, false)] => true | _, _ => false end = true.
Proof. apply by_executing. vm_compute. reflexivity. Qed.
(* With the ping, close() times out, and the close code is 1006 although the peer sent 1000. *)
Example C67_outcome :
  exists st, execution no_ext ex_closing [] (ex_ping_close ++
     [LTick 3; LUser 0 Timeout; LT Go; LUser 0 Go; LC Go; LLost None true; LC Go; LUser 0 Go]) st /\
    match p_close st, p_users st with Some (1006%Z, []), [(UDone RNone, false)] => true | _, _ => false end = true.
Proof. apply by_executing. vm_compute. reflexivity. Qed.

(* ---- C68 ---- *)

(* close_connection ends once; before that, either the connection was lost or it was aborted. *)
Section Ends.
Context {E : Type} (X : ext_ops E) (cfg : config).
Implicit Type st : conn E.
Definition Ended st : Prop :=
  match p_C st with
  | CDone _ => p_lost st <> None \/ p_aborted st <> None
  | CLost4 _ _ => p_aborted st <> None
  | _ => True
  end.
Lemma step_ended st l st' : Base st -> step X cfg st l = Some st' ->
  (forall x, p_C st = CDone x -> p_C st' = CDone x) /\ (p_aborted st <> None -> p_aborted st' <> None) /\
  (Ended st -> Ended st').
Proof.
  intros (_ & Lo & _) H.
  assert (L : p_lost st <> None -> p_lost st' <> None).
  { intros Q. destruct (p_lost_step X cfg _ _ _ H) as [[-> _]|(o & c & _ & N)]; [exact Q|].
    apply Lo in Q. contradiction. }
  assert (K : ck st st' ->
    (forall x, p_C st = CDone x -> p_C st' = CDone x) /\ (p_aborted st <> None -> p_aborted st' <> None) /\
    (Ended st -> Ended st')).
  { intros (K1 & K2 & K3 & K4). split; [intros x Q; destruct K3 as [->|[K3 _]]; congruence|].
    split; [congruence|]. unfold Ended. destruct K3 as [->|[_ ->]]; [|tauto]. rewrite K2. destruct (p_C st); tauto. }
  destruct l; cbn [step] in H.
  - destruct (p_state st); try discriminate. destruct (p_C st) eqn:HC; try discriminate.
    apply some_inj in H as <-. split; [congruence|]. split; [auto|]. intros _. exact Logic.I.
  - destruct (fail_connection _ _ _ _) as [st2 e2] eqn:F. apply some_inj in H as <-. cbn [fst] in *.
    apply K. exact (fail_ck X cfg _ _ _ _ F).
  - destruct (r_eof _); [discriminate|]. apply some_inj in H as <-. apply K. split; [reflexivity|]. split; [reflexivity|]. split; [now left|auto].
  - destruct (r_eof _); [discriminate|]. apply some_inj in H as <-. apply K. split; [reflexivity|]. split; [reflexivity|]. split; [now left|auto].
  - assert (H' : connection_lost st o closing = st') by (destruct (p_state st); try discriminate; now apply some_inj in H).
    destruct (connection_lost_shape st o closing) as (? & ? & ? & ? & ? & Sh). rewrite Sh in H'. subst st'. apply K.
    split; [reflexivity|]. split; [reflexivity|]. split; [now left|auto].
  - apply some_inj in H as <-. split; [auto|]. split; auto.
  - apply some_inj in H as <-. split; [auto|]. split; auto.
  - apply some_inj in H as <-. split; [auto|]. split; auto.
  - destruct (nth_error (p_users st) i) as [[pc0 c0]|] eqn:Hj; [|discriminate].
    assert (H' : set_users (replace i (pc0, true) (p_users st)) st = st')
      by (destruct pc0; try discriminate; now apply some_inj in H).
    subst st'. split; [auto|]. split; auto.
  - apply K. exact (step_T_ck X cfg _ _ _ H).
  - apply K. exact (step_K_ck X cfg _ _ _ H).
  - assert (Lt : is_lost st = true -> p_lost st' <> None).
    { intros Q. apply L. unfold is_lost in Q. destruct (p_lost st); discriminate. }
    assert (Tc : forall e, close_tcp cfg st e = st' -> p_aborted st' = p_aborted st /\ Ended st').
    { intros e <-. revert Lt. unfold close_tcp. change (is_lost (set_closing true st)) with (is_lost st).
      destruct (is_lost st); cbn [andb]; [destruct (p_closing st)|]; intros Lt; (split; [reflexivity|]);
        unfold Ended; cbn [p_C set_C]; try exact Logic.I; left; now apply Lt. }
    assert (Hc : half_close cfg st = st' -> p_aborted st' = p_aborted st /\ Ended st').
    { intros <-. revert Lt Tc. unfold half_close. destruct (c_can_write_eof cfg); [|intros _ Tc; now apply (Tc None)].
      intros Lt _. revert Lt. change (is_lost (set_eof_written true st)) with (is_lost st). unfold close_tcp.
      change (is_lost (set_eof_written true st)) with (is_lost st).
      change (p_closing (set_eof_written true st)) with (p_closing st).
      change (is_lost (set_closing true (set_eof_written true st))) with (is_lost st).
      destruct (is_lost st); cbn [andb]; [destruct (p_closing st)|]; intros Lt; (split; [reflexivity|]);
        unfold Ended; cbn [p_C set_C]; try exact Logic.I; left; now apply Lt. }
    assert (At : after_transfer cfg st = st' -> p_aborted st' = p_aborted st /\ Ended st').
    { clear Tc Hc. intros <-. revert Lt. unfold after_transfer, half_close, close_tcp.
      assert (G : forall s, (s = st \/ exists v, s = set_Kcancel v st) -> forall s', (is_lost st = true -> p_lost s' <> None) ->
        s' = (if c_client cfg && T_exists s then if is_lost s then close_tcp cfg s None
              else set_C (CLost1 (deadline s (c_close_timeout cfg))) s else half_close cfg s) ->
        p_aborted s' = p_aborted st /\ Ended s').
      { intros s Hs s' Ls Q.
        assert (Q1 : is_lost s = is_lost st) by (destruct Hs as [->|(v & ->)]; reflexivity).
        assert (Q2 : p_aborted s = p_aborted st) by (destruct Hs as [->|(v & ->)]; reflexivity).
        clear Hs. unfold half_close, close_tcp in Q. rewrite <- Q2. rewrite <- Q1 in Ls. clear Q1 Q2.
        change (is_lost (set_eof_written true s)) with (is_lost s) in Q.
        change (is_lost (set_closing true (set_eof_written true s))) with (is_lost s) in Q.
        change (is_lost (set_closing true s)) with (is_lost s) in Q.
        change (p_closing (set_eof_written true s)) with (p_closing s) in Q.
        subst s'. revert Ls.
        destruct (c_client cfg && T_exists s); [|destruct (c_can_write_eof cfg)];
          (destruct (is_lost s); cbn [andb]; [destruct (p_closing s)|]); intros Ls; (split; [reflexivity|]);
          unfold Ended; cbn [p_C set_C]; try exact Logic.I; left; now apply Ls. }
      intros Lt. destruct (p_K st); (eapply G; [|exact Lt|reflexivity]); [now left|right; now exists true..]. }
    assert (Fin : p_aborted st' = p_aborted st /\ Ended st' -> forall y, p_C st = y -> (forall x, y <> CDone x) ->
      (forall x, p_C st = CDone x -> p_C st' = CDone x) /\ (p_aborted st <> None -> p_aborted st' <> None) /\
      (Ended st -> Ended st')).
    { intros [F1 F2] y Hy N. split; [intros x Q; rewrite Hy in Q; now apply N in Q|]. split; [congruence|auto]. }
    unfold step_C in H. destruct (p_C st) as [| | |d|d|d e|d e|e] eqn:HC; destruct a; try discriminate.
    + destruct (T_exists st); apply some_inj in H; (eapply Fin; [|reflexivity|discriminate]); [|now apply At].
      subst st'. split; [reflexivity|exact Logic.I].
    + destruct (p_T st) as [| | | | | | |[e|]]; try discriminate; apply some_inj in H; (eapply Fin; [|reflexivity|discriminate]);
        [now apply (Tc (Some e))|now apply At].
    + destruct (is_lost st); [|discriminate]. apply some_inj in H. eapply Fin; [|reflexivity|discriminate]. now apply (Tc None).
    + destruct (expired st d); [|discriminate]. apply some_inj in H. eapply Fin; [|reflexivity|discriminate].
      destruct (is_lost st); [now apply (Tc None)|now apply Hc].
    + destruct (is_lost st); [|discriminate]. apply some_inj in H. eapply Fin; [|reflexivity|discriminate]. now apply (Tc None).
    + destruct (expired st d); [|discriminate]. apply some_inj in H. eapply Fin; [|reflexivity|discriminate]. now apply (Tc None).
    + destruct (is_lost st); [|discriminate]. apply some_inj in H as <-. eapply Fin; [|reflexivity|discriminate].
      split; [reflexivity|]. left. now apply Lt.
    + destruct (expired st d); [|discriminate]. destruct (is_lost st); apply some_inj in H as <-.
      * eapply Fin; [|reflexivity|discriminate]. split; [reflexivity|]. left. now apply Lt.
      * split; [discriminate|]. split; [discriminate|]. intros _. discriminate.
    + destruct (is_lost st); [|discriminate]. apply some_inj in H as <-. eapply Fin; [|reflexivity|discriminate].
      split; [reflexivity|]. left. now apply Lt.
    + destruct (expired st d); [|discriminate]. apply some_inj in H as <-. split; [discriminate|]. split; [auto|].
      unfold Ended at 1. rewrite HC. intros Q. right. exact Q.
  - apply K. exact (step_user_ck X cfg _ _ _ _ H).
Qed.
Lemma Ended_exec exts ls st : exec X cfg (initial exts) ls = Some st -> Base st /\ Ended st.
Proof.
  apply (exec_steps X cfg (fun st => Base st /\ Ended st)).
  - intros st1 l st2 [B C] H. split; [eapply Base_step; eauto|]. now apply (step_ended st1 l st2 B H).
  - split; [apply Base_initial|exact Logic.I].
Qed.

(* A call to send() which waits for the connection to be closed *)
Definition raises st (e : pexn) : Prop :=
  (exists code reason, connection_closed e code reason) \/ e = CancelledError \/
  (exists x, p_C st = CDone (Some x) /\ e = PyExn x) \/ (p_aborted st <> None /\ e = PyExn AttributeError).
Definition Refused i st : Prop :=
  exists pc c, nth_error (p_users st) i = Some (pc, c) /\ (pc = UEnsure \/ exists e, pc = UDone (RRaise e) /\ raises st e).
Lemma closed_exc_raises st : Code st -> (p_lost st <> None \/ p_aborted st <> None) -> raises st (connection_closed_exc st).
Proof.
  intros (_ & C) H. destruct (p_close st) as [[code reason]|] eqn:Ec.
  - left. exists code, reason. now apply connection_closed_exc_spec.
  - right. right. right. unfold connection_closed_exc. rewrite Ec. split; [|reflexivity].
    destruct C as [(? & ? & ? & _ & _ & _ & C)|[_ C]]; [discriminate|].
    destruct H as [H|H]; [|exact H]. destruct (p_lost st); [discriminate|contradiction].
Qed.
Lemma Refused_exec i st ls st' : Base st -> Recv cfg st -> Code st -> Ended st -> exec X cfg st ls = Some st' ->
  Refused i st -> Refused i st' /\ written_by (ByCall i) st' = written_by (ByCall i) st.
Proof.
  revert st. induction ls as [|l ls IH]; cbn [exec]; intros st B R C En H F.
  - apply some_inj in H as <-. now split.
  - destruct (step X cfg st l) as [st1|] eqn:S1; [|discriminate].
    assert (B1 : Base st1) by exact (Base_step X cfg st l st1 B S1).
    assert (R1 : Recv cfg st1) by exact (Recv_step X cfg st l st1 B R S1).
    assert (C1 : Code st1) by exact (Code_step X cfg st l st1 B C S1).
    destruct (step_ended st l st1 B S1) as (E1 & E2 & E3).
    assert (Mono : forall e, raises st e -> raises st1 e).
    { intros e [Q|[Q|[(x & Q1 & Q2)|[Q1 Q2]]]]; [now left|right; now left|right; right; left; eauto|].
      do 3 right. auto. }
    assert (G : Refused i st1 /\ written_by (ByCall i) st1 = written_by (ByCall i) st).
    { assert (D : (exists a, l = LUser i a) \/ (forall a, l <> LUser i a)).
      { destruct l; try (right; discriminate). destruct (Nat.eq_dec i0 i) as [-> |Hn]; [left; eauto|right; congruence]. }
      destruct F as (pc & c & Hi & F). destruct D as [(a & ->)|D].
      - cbn [step] in S1. unfold step_user in S1. rewrite Hi in S1.
        destruct F as [-> |(e & -> & _)]; [|destruct c; discriminate].
        assert (Li : (i < length (p_users st))%nat) by (apply nth_error_Some; congruence).
        assert (Rs : forall e, raises st e -> st1 = raise_ i e st ->
          Refused i st1 /\ written_by (ByCall i) st1 = written_by (ByCall i) st).
        { intros e He ->. split; [|reflexivity]. exists (UDone (RRaise e)), false.
          split; [now apply nth_error_replace_eq|]. right. exists e. split; [reflexivity|]. now apply Mono. }
        destruct c.
        + destruct a; try discriminate. apply some_inj in S1. apply (Rs CancelledError); [right; now left|now symmetry].
        + unfold step_call in S1. destruct a; try discriminate. unfold ensure_open_end in S1.
          unfold Ended in En. destruct (p_C st) as [| | | | | | |[x|]] eqn:HC; try discriminate; apply some_inj in S1.
          * apply (Rs (PyExn x)); [right; right; left; eauto|now symmetry].
          * apply (Rs (connection_closed_exc st)); [|now symmetry]. now apply closed_exc_raises.
      - split; [|now apply (step_other_written X cfg st l st1)]. destruct R as (W & _).
        destruct (step_other_user X cfg st l st1 i pc c W D S1 Hi) as (c' & Q & _). exists pc, c'. split; [exact Q|].
        destruct F as [F|(e & F1 & F2)]; [now left|right]. exists e. split; [exact F1|]. auto. }
    destruct G as [G1 G2]. destruct (IH st1 B1 R1 C1 (E3 En) H G1) as [Q1 Q2]. split; [exact Q1|congruence].
Qed.
End Ends.

(* send() is called after the closing handshake started, or after the connection was closed: it doesn't
   return, it doesn't write anything, and the exception it raises is ConnectionClosed, unless it's
   cancelled, close_connection failed, or the transport was aborted and didn't report it in time. *)
Theorem C68_send_after_closing_partial :
  forall E (X : ext_ops E) cfg exts before m after st1 st2 st i,
    execution X cfg exts before st1 ->
    p_state st1 = Closing \/ p_state st1 = Closed ->
    nth_error (p_users st1) i = Some (UStart (CallSend m), false) ->
    step X cfg st1 (LUser i Go) = Some st2 ->
    exec X cfg st2 after = Some st ->
    written_by (ByCall i) st = written_by (ByCall i) st1 /\
    exists pc c, nth_error (p_users st) i = Some (pc, c) /\
      forall r, pc = UDone r ->
        exists e, r = RRaise e /\
          ((exists code reason, connection_closed e code reason) \/
           e = CancelledError \/
           (exists x, p_C st = CDone (Some x) /\ e = PyExn x) \/
           (p_aborted st <> None /\ e = PyExn AttributeError)).
Proof.
  intros E X cfg exts before m after st1 st2 st i H1 Hs Hi S1 H. unfold execution in H1.
  destruct (Recv_exec X cfg exts before st1 H1) as [B R]. destruct (Code_exec X cfg exts before st1 H1) as [_ C].
  destruct (Ended_exec X cfg exts before st1 H1) as [_ En].
  assert (B2 : Base st2) by exact (Base_step X cfg _ _ _ B S1).
  assert (R2 : Recv cfg st2) by exact (Recv_step X cfg _ _ _ B R S1).
  assert (C2 : Code st2) by exact (Code_step X cfg _ _ _ B C S1).
  destruct (step_ended X cfg _ _ _ B S1) as (E1 & E2 & E3).
  assert (Li : (i < length (p_users st1))%nat) by (apply nth_error_Some; congruence).
  assert (F : Refused i st2 /\ written_by (ByCall i) st2 = written_by (ByCall i) st1).
  { cbn [step] in S1. unfold step_user in S1. rewrite Hi in S1. unfold step_call, start_call, ensure_open in S1.
    destruct Hs as [Hs|Hs]; rewrite Hs in S1; apply some_inj in S1 as <-; (split; [|reflexivity]).
    - exists UEnsure, false. split; [now apply nth_error_replace_eq|now left].
    - eexists _, false. split; [now apply nth_error_replace_eq|]. right. eexists. split; [reflexivity|].
      destruct (closed_exc_raises st1 C) as [Q|[Q|[Q|Q]]]; [left; apply B; exact Hs|..];
        [now left|right; now left|right; right; now left|right; right; now right]. }
  destruct F as [F1 F2]. destruct (Refused_exec X cfg i st2 after st B2 R2 C2 (E3 En) H F1) as [(pc & c & Q1 & Q2) Q3].
  split; [congruence|]. exists pc, c. split; [exact Q1|]. intros r ->.
  destruct Q2 as [Q2|(e & Q2 & Q4)]; [discriminate|]. injection Q2 as ->. exists e. split; [reflexivity|exact Q4].
Qed.

Example C68_applies :
  exists st, execution no_ext ex_closing [] ([LOpen; LC Go; LCall (CallClose 1000 []); LUser 0 Go;
      LCall (CallSend (SData (PStr (s "a")))); LUser 1 Go] ++
      [LUser 0 DrainOk; LData (bs [136; 2; 3; 232]); LT Go; LC Go; LLost None true; LC Go; LUser 1 Go]) st /\
    match p_users st with [_; (UDone (RRaise (ConnectionClosedOK 1000 [])), false)] => true | _ => false end = true.
Proof. apply by_executing. vm_compute. reflexivity. Qed.

(* Calls to send() which began earlier may raise other exceptions. The first one sends an asynchronous
   iterable, the second one waits for it; then the connection is closed. *)
Theorem C68_waiting_refuted :
  exists st, execution no_ext ex_closing [] [LOpen; LC Go; LCall (CallSend SAsync); LUser 0 Go;
      LUser 0 (Next (Item (PStr (s "a")))); LUser 0 DrainOk; LCall (CallSend (SData (PStr (s "b")))); LUser 1 Go;
      LCall (CallClose 1000 []); LUser 2 Go; LUser 0 (Next Stop); LUser 1 Go] st /\
    match p_users st with
    | [(UDone (RRaise (PyExn (InvalidState _))), _); (UDone (RRaise (PyExn (InvalidState _))), _); _] => true
    | _ => false
    end = true.
Proof. apply by_executing. vm_compute. reflexivity. Qed.
(* The operating system reports an error other than ConnectionError while send() waits for the write buffer
   to be flushed. *)
Theorem C68_os_error_refuted :
  exists st, execution no_ext ex_closing [] [LOpen; LC Go; LCall (CallSend (SData (PStr (s "a")))); LUser 0 Go;
      LLost (Some OtherOsErr) true; LUser 0 (DrainErr OtherOsErr)] st /\
    match p_users st with [(UDone (RRaise (OsError OtherOsErr)), _)] => true | _ => false end = true.
Proof. apply by_executing. vm_compute. reflexivity. Qed.
(* The transport doesn't report that it was aborted. *)
Theorem C68_abort_refuted :
  exists st, execution no_ext ex_closing [] ([LOpen; LC Go; LCall (CallClose 1000 []); LUser 0 Go; LUser 0 DrainOk;
      LCall (CallSend (SData (PStr (s "a")))); LUser 1 Go; LTick 3; LUser 0 Timeout; LT Go; LC Go] ++
      [LTick 3; LC Timeout; LTick 3; LC Timeout; LTick 3; LC Timeout; LTick 3; LC Timeout; LUser 1 Go]) st /\
    match p_users st with [_; (UDone (RRaise (PyExn AttributeError)), _)] => true | _ => false end = true.
Proof. apply by_executing. vm_compute. reflexivity. Qed.

Print Assumptions C66_close_terminates.
Print Assumptions C67_ping_during_close_refuted.
Print Assumptions C68_send_after_closing_partial.
Print Assumptions C68_waiting_refuted.
Print Assumptions C68_os_error_refuted.
Print Assumptions C68_abort_refuted.
