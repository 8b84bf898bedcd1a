(* Properties of "async for message in websocket" (C83). *)
From Verif Require Import Base.Prelude Base.PreludeFacts Model.Streams Model.Frames
  Model.LegacyFraming Model.LegacyProtocol Model.LegacyIter Spec.Rfc6455 Spec.Messages Spec.Asyncio Spec.AsyncioIter
  Proofs.LegacyPrims Proofs.LegacyFields Proofs.LegacyShapes Proofs.LegacyUsers Proofs.LegacyClose
  Proofs.LegacyQueue Proofs.LegacyMessages Proofs.LegacyRecv Proofs.LegacySend
  Properties.AsyncioState Properties.FrameCodec Properties.AsyncioClosing Proofs.LegacyIterFacts.
Local Open Scope N_scope.

(* To show that an iteration exists and ends in a state where P holds *)
Lemma by_iterating cfg ls (P : iteration Empty_set -> bool) :
  match gexec no_ext cfg (ginitial []) ls with Some g => P g | None => false end = true ->
  exists g, iterating no_ext cfg [] ls g /\ P g = true.
Proof.
  unfold iterating. destruct (gexec no_ext cfg (ginitial []) ls) as [g|]; [|discriminate].
  intros H. exists g. now split.
Qed.

(* ---- C83 ---- *)

(* p_in: the frames received.  The loop yields the messages received, in order, each one once:
   the data frames received are those of the messages that were yielded, then those of messages that
   will be, then the frames of a message that isn't complete or waits for room in the queue (C56). *)
Theorem C83_yields_in_order :
  forall E (X : ext_ops E) cfg exts ls g,
    iterating X cfg exts ls g -> only_receiver ls -> c_legacy_recv cfg = false ->
    exists done rest yielded later,
      data_frames (p_in (g_conn g)) = concat done ++ rest /\ Forall complete_message done /\
      g_yielded g = map Some yielded /\ Forall2 carries done (yielded ++ later).
Proof.
  intros E X cfg exts ls g H O Leg. destruct (gexec_inv X cfg exts ls g Leg O H) as ((B & R & _) & _ & ys & Y & I).
  destruct R as (_ & _ & (done & rest & D1 & D2 & D3 & _) & _).
  assert (T : exists later, taken (g_conn g) = ys ++ later).
  { unfold iter_at in I. destruct (g_pc g).
    - exists []. now rewrite app_nil_r.
    - destruct I as (pc & c & _ & _ & _ & F).
      destruct pc as [[]| | | | | | | | | | | | | | | |[]]; cbn [call_at] in F; try contradiction;
        try (exists [m]; exact F); exists []; rewrite app_nil_r; try exact F; apply F.
    - exists []. rewrite app_nil_r. apply I.
    - exists []. rewrite app_nil_r. apply I. }
  destruct T as (later & T). fold (taken (g_conn g)) in D3. rewrite T, <- app_assoc in D3.
  exists done, rest, ys, (later ++ p_messages (g_conn g)). split; [exact D1|].
  split; [revert D2; apply Forall_impl; tauto|]. now split.
Qed.

(* The loop ends normally only after a close frame with code 1000 or 1001 was received.  Then all
   messages received before this frame were yielded: no data frame is left, except those of a message
   that the other side didn't finish. *)
Theorem C83_normal_end :
  forall E (X : ext_ops E) cfg exts ls g,
    iterating X cfg exts ls g -> only_receiver ls -> c_legacy_recv cfg = false -> loop_ended g ->
    exists before f code reason done rest yielded,
      p_in (g_conn g) = before ++ [f] /\ close_frame f code reason /\ normal_code code /\
      data_frames before = concat done ++ rest /\ (rest = [] \/ unfinished_message rest) /\
      Forall complete_message done /\ g_yielded g = map Some yielded /\ Forall2 carries done yielded.
Proof.
  intros E X cfg exts ls g H O Leg En. destruct (gexec_inv X cfg exts ls g Leg O H) as ((B & R & C & _) & _ & ys & Y & I).
  unfold iter_at in I. rewrite En in I. destruct I as (T & [D M] & code & reason & Hc & Hn).
  destruct C as (_ & [(before & f & x & C1 & C2 & C3 & C4)|[_ C]]);
    [|exfalso; rewrite Hc in C; destruct (p_lost (g_conn g)); [|discriminate]; injection C as -> _; destruct Hn; discriminate].
  rewrite Hc in C4. injection C4 as <-.
  assert (Cf : close_frame f code reason) by now apply close_frame_parses.
  assert (Nd : is_data_b f = false) by (destruct Cf as [Q _]; unfold is_data_b; now rewrite Q).
  destruct R as (_ & _ & (done & rest & D1 & D2 & D3 & D4) & _).
  fold (taken (g_conn g)) in D3. rewrite T, M, app_nil_r in D3.
  apply T_done_settled in D as (e & D). rewrite D in D4. cbn [tail] in D4. rewrite C1 in D1.
  assert (D1' : data_frames before = concat done ++ rest).
  { unfold data_frames in *. rewrite filter_app in D1. cbn [filter] in D1. rewrite Nd, app_nil_r in D1. exact D1. }
  exists before, f, code, reason, done, rest, ys. split; [exact C1|]. split; [exact Cf|]. split; [exact Hn|]. split; [exact D1'|].
  split.
  - destruct D4 as [D4|[D4|[_ (l & f' & Q1 & Q2)]]]; [now left|now right|exfalso].
    rewrite C1 in Q1. apply app_inj_tail in Q1 as [_ <-]. congruence.
  - split; [revert D2; apply Forall_impl; tauto|]. now split.
Qed.

(* When the loop raises an exception, a task was cancelled, or all the messages put in the queue were
   yielded and the exception is ConnectionClosedError.  It has the code of the close frame that was
   received, which isn't 1000 or 1001, or 1006 if there was none.  Else, close_connection failed, or the
   transport was aborted and didn't report it in time (see C68). *)
Theorem C83_exception :
  forall E (X : ext_ops E) cfg exts ls g e,
    iterating X cfg exts ls g -> only_receiver ls -> c_legacy_recv cfg = false -> loop_raised g e ->
    (e = CancelledError /\ cancelled ls) \/
    ((exists done rest yielded,
        data_frames (p_in (g_conn g)) = concat done ++ rest /\ Forall complete_message done /\
        g_yielded g = map Some yielded /\ Forall2 carries done yielded) /\
     ((exists code reason, e = ConnectionClosedError code reason /\ ~ normal_code code /\
         ((exists l f, p_in (g_conn g) = l ++ [f] /\ close_frame f code reason) \/
          (code = 1006%Z /\ reason = [] /\ forall f, In f (p_in (g_conn g)) -> forall c r, ~ close_frame f c r))) \/
      (exists x, p_C (g_conn g) = CDone (Some x) /\ e = PyExn x) \/
      (p_aborted (g_conn g) <> None /\ e = PyExn AttributeError))).
Proof.
  intros E X cfg exts ls g e H O Leg Er. destruct (gexec_inv X cfg exts ls g Leg O H) as ((B & R & C & _) & _ & ys & Y & I).
  unfold iter_at in I. rewrite Er in I. destruct I as (T & [F|[[D M] F]] & N); [now left|right].
  split.
  - destruct R as (_ & _ & (done & rest & D1 & D2 & D3 & D4) & _).
    fold (taken (g_conn g)) in D3. rewrite T, M, app_nil_r in D3. exists done, rest, ys. split; [exact D1|].
    split; [revert D2; apply Forall_impl; tauto|]. now split.
  - destruct F as [(code & reason & F1 & F2)|F]; [left|right; exact F]. exists code, reason.
    destruct F2 as [[_ F2]|[F2 F3]]; [now contradiction (N code reason)|]. split; [exact F3|]. split; [exact F2|].
    destruct C as (_ & [(l & f & x & C1 & C2 & C3 & C4)|[C1 C2]]).
    + left. exists l, f. split; [exact C1|]. rewrite F1 in C4. injection C4 as <-. now apply close_frame_parses.
    + right. rewrite F1 in C2. destruct (p_lost (g_conn g)); [|discriminate]. injection C2 as -> ->.
      split; [reflexivity|]. split; [reflexivity|]. intros f Hf c r Q. apply close_frame_parses in Q.
      rewrite Forall_forall in C1. exact (C1 f Hf _ Q).
Qed.

(* Once the connection is closed and all messages were yielded, the loop ends, normally or with an
   exception, when it asks for another message: steps of this call are all that's needed. *)
Lemma last_call {E} (X : ext_ops E) cfg st i : c_legacy_recv cfg = false ->
  Base st -> nth_error (p_users st) i = Some (UStart CallRecv, false) -> p_pop st = None ->
  drained st -> (exists x, p_C st = CDone x) ->
  exists n st' e c, exec X cfg st (repeat (LUser i Go) n) = Some st' /\ nth_error (p_users st') i = Some (UDone (RRaise e), c).
Proof.
  intros Leg B Hi Hp [D M] (x & HC). assert (L : (i < length (p_users st))%nat) by (apply nth_error_Some; congruence).
  assert (Ex : T_exists st = true) by (unfold T_done, T_exists in *; destruct (p_T st); congruence).
  set (st1 := set_user i (URecvWait (length (p_pops st)))
    (set_pop (Some (length (p_pops st))) (set_pops (p_pops st ++ [FPending]) st))).
  assert (S1 : step X cfg st (LUser i Go) = Some st1).
  { cbn [step]. unfold step_user. rewrite Hi. unfold step_call, start_call. rewrite Hp. unfold recv_loop. rewrite M.
    cbv zeta. change (T_exists (set_pops _ st)) with (T_exists st). rewrite Ex. reflexivity. }
  assert (Hi1 : nth_error (p_users st1) i = Some (URecvWait (length (p_pops st)), false)) by now apply nth_error_replace_eq.
  assert (L1 : (i < length (p_users st1))%nat) by (apply nth_error_Some; congruence).
  assert (Ef : fut_done (get_fut (p_pops st1) (length (p_pops st))) = false).
  { unfold get_fut. change (p_pops st1) with (p_pops st ++ [FPending]). now rewrite app_nth2, Nat.sub_diag by lia. }
  assert (E0 : T_done st1 = true) by exact D. assert (C1 : p_C st1 = CDone x) by exact HC.
  assert (P1 : p_state st1 = p_state st) by reflexivity.
  clearbody st1.
  assert (S2 : exists st2, step X cfg st1 (LUser i Go) = Some st2 /\ (i < length (p_users st2))%nat /\
    (nth_error (p_users st2) i = Some (UEnsure, false) /\ p_C st2 = CDone x \/
     exists e, nth_error (p_users st2) i = Some (UDone (RRaise e), false))).
  { cbn [step]. unfold step_user. rewrite Hi1. unfold step_call. rewrite Ef, E0. cbn [orb].
    eexists. split; [reflexivity|]. unfold recv_resume. cbv zeta. change (p_pops (set_pop None st1)) with (p_pops st1).
    rewrite Ef, Leg. unfold ensure_open. change (p_state (set_pop None st1)) with (p_state st1).
    change (T_done (set_pop None st1)) with (T_done st1). rewrite E0.
    destruct (p_state st1) eqn:Es.
    - exfalso. destruct B as (_ & _ & _ & S0). apply S0; [|congruence]. intros Q. unfold T_done in D. now rewrite Q in D.
    - split; [unfold set_user; cbn [p_users set_users]; now rewrite length_replace|]. left. split; [now apply nth_error_replace_eq|exact C1].
    - split; [unfold set_user; cbn [p_users set_users]; now rewrite length_replace|]. left. split; [now apply nth_error_replace_eq|exact C1].
    - split; [unfold raise_, return_, set_user; cbn [p_users set_users]; now rewrite length_replace|]. right. eexists. now apply nth_error_replace_eq. }
  destruct S2 as (st2 & S2 & L2 & [[Hi2 C2]|(e & Hi2)]).
  - assert (S3 : exists st3 e, step X cfg st2 (LUser i Go) = Some st3 /\ nth_error (p_users st3) i = Some (UDone (RRaise e), false)).
    { cbn [step]. unfold step_user. rewrite Hi2. unfold step_call, ensure_open_end. rewrite C2.
      destruct x as [x|]; eexists _, _; (split; [reflexivity|now apply nth_error_replace_eq]). }
    destruct S3 as (st3 & e & S3 & Hi3). exists 3%nat, st3, e, false. cbn [repeat exec]. rewrite S1, S2, S3. now split.
  - exists 2%nat, st2, e, false. cbn [repeat exec]. rewrite S1, S2. now split.
Qed.
Lemma gexec_conn {E} (X : ext_ops E) cfg ls st st' pc ys : exec X cfg st ls = Some st' ->
  gexec X cfg (Iteration st pc ys) (map GConn ls) = Some (Iteration st' pc ys).
Proof.
  revert st. induction ls as [|l ls IH]; cbn [exec map gexec gstep g_conn g_pc g_yielded]; intros st H.
  - apply some_inj in H as <-. reflexivity.
  - destruct (step X cfg st l); [now apply IH|discriminate].
Qed.
Theorem C83_loop_ends :
  forall E (X : ext_ops E) cfg exts ls g,
    iterating X cfg exts ls g -> only_receiver ls -> c_legacy_recv cfg = false ->
    g_pc g = GReady -> T_done (g_conn g) = true -> p_messages (g_conn g) = [] -> (exists x, p_C (g_conn g) = CDone x) ->
    exists n g', gexec X cfg g (GNext :: repeat (GConn (LUser (length (p_users (g_conn g))) Go)) n ++ [GResume]) = Some g' /\
      (loop_ended g' \/ exists e, loop_raised g' e).
Proof.
  intros E X cfg exts ls g H O Leg Hg D M HC. destruct (gexec_inv X cfg exts ls g Leg O H) as ((B & R & C & En & On & Rg) & So & _).
  rewrite Hg in So. set (st := g_conn g) in *. cbn [current] in So.
  assert (Hp : p_pop st = None).
  { destruct (p_pop st) as [w|] eqn:Ep; [|reflexivity]. destruct (Rg w Ep) as (j & c & Hj).
    pose proof (So j _ _ Hj (or_intror (ex_intro _ w eq_refl))) as Q. discriminate. }
  assert (Ex : T_exists st = true) by (unfold T_done, T_exists in *; destruct (p_T st); congruence).
  set (st1 := set_users (p_users st ++ [(UStart CallRecv, false)]) st).
  assert (S1 : step X cfg st (LCall CallRecv) = Some st1) by reflexivity.
  destruct (last_call X cfg st1 (length (p_users st)) Leg) as (n & st' & e & c & Q1 & Q2).
  - exact (Base_step X cfg _ _ _ B S1).
  - unfold st1. cbn [p_users set_users]. rewrite nth_error_app2, Nat.sub_diag by lia. reflexivity.
  - exact Hp.
  - now split.
  - exact HC.
  - exists n. cbn [gexec gstep]. rewrite Hg. fold st. rewrite Ex, S1. rewrite gexec_app.
    replace (repeat (GConn (LUser (length (p_users st)) Go)) n) with (map GConn (repeat (LUser (length (p_users st)) Go) n))
      by (clear; induction n as [|n IH]; [reflexivity|cbn [repeat map]; now rewrite IH]).
    rewrite (gexec_conn X cfg _ st1 st' _ _ Q1). cbn [gexec gstep g_conn g_pc g_yielded]. rewrite Q2.
    destruct e; eexists; (split; [reflexivity|]); try (right; eexists; reflexivity); now left.
Qed.

(* two messages, the second one received before the close frame but yielded after it *)
Definition ex_iteration (code : list N) : list glabel :=
  [GConn LOpen; GConn (LC Go); GNext; GConn (LUser 0 Go); GConn (LData (bs ([130; 1; 97; 129; 1; 98; 136; 2] ++ code)));
   GConn (LT Go); GConn (LUser 0 Go); GResume; GConn (LT Go); GConn (LT Go); GConn (LT DrainOk); GConn (LC Go); GConn (LLost None true);
   GConn (LC Go); GNext; GConn (LUser 1 Go); GResume].
Example C83_applies :
  exists g, iterating no_ext ex_config [] (ex_iteration [3; 232] ++ [GNext; GConn (LUser 2 Go); GConn (LUser 2 Go); GResume]) g /\
  match g_pc g, g_yielded g with GReturned, [Some (MBinary _); Some (MText [98])] => true | _, _ => false end = true.
Proof. apply by_iterating. vm_compute. reflexivity. Qed.
Example C83_applies_error :
  exists g, iterating no_ext ex_config [] (ex_iteration [3; 243] ++ [GNext; GConn (LUser 2 Go); GConn (LUser 2 Go); GResume]) g /\
  match g_pc g, g_yielded g with
  | GRaised (ConnectionClosedError 1011 []), [Some (MBinary _); Some (MText [98])] => true | _, _ => false
  end = true.
Proof. apply by_iterating. vm_compute. reflexivity. Qed.
Example C83_applies_only_receiver :
  only_receiver (ex_iteration [3; 232] ++ [GNext; GConn (LUser 2 Go); GConn (LUser 2 Go); GResume]).
Proof. cbn [ex_iteration app]. unfold only_receiver. cbn [In]. intros Q. repeat destruct Q as [Q|Q]; try discriminate. exact Q. Qed.
Example C83_applies_loop_ends :
  exists g, iterating no_ext ex_config [] (ex_iteration [3; 232]) g /\
  match g_pc g, T_done (g_conn g), p_messages (g_conn g), p_C (g_conn g) with
  | GReady, true, [], CDone None => true | _, _, _, _ => false
  end = true.
Proof. apply by_iterating. vm_compute. reflexivity. Qed.

(* With legacy_recv=True, recv() returns None when the connection is closed: then the loop never ends
   normally *)
Definition endless (pc : upc) : Prop :=
  match pc with
  | UStart CallRecv | URecvWait _ => True
  | UDone (RRaise (ConnectionClosedOK _ _)) => False
  | UDone _ => True
  | _ => False
  end.
Lemma recv_loop_endless {E} (st : conn E) i : (i < length (p_users st))%nat ->
  exists pc, nth_error (p_users (recv_loop st i)) i = Some (pc, false) /\ endless pc.
Proof.
  intros L. unfold recv_loop. cbv zeta. destruct (p_messages st).
  - destruct (T_exists _); eexists; (split; [now apply nth_set_user|exact Logic.I]).
  - destruct (p_put _); [destruct (set_result _ _)|]; eexists; (split; [now apply nth_set_user|exact Logic.I]).
Qed.
Lemma endless_step {E} (X : ext_ops E) cfg st l st' i pc c : c_legacy_recv cfg = true -> Waiters st ->
  nth_error (p_users st) i = Some (pc, c) -> endless pc -> step X cfg st l = Some st' ->
  exists pc' c', nth_error (p_users st') i = Some (pc', c') /\ endless pc'.
Proof.
  intros Leg W Hi F H. assert (L : (i < length (p_users st))%nat) by (apply nth_error_Some; congruence).
  assert (D : (exists a, l = LUser i a) \/ forall a, l <> LUser i a).
  { destruct l; try (right; discriminate). destruct (Nat.eq_dec i0 i) as [-> |Hn]; [left; eauto|right; congruence]. }
  destruct D as [(a & ->)|D].
  - cbn [step] in H.
    assert (Rs : forall s e, p_users s = p_users st -> (forall code reason, e <> ConnectionClosedOK code reason) -> st' = raise_ i e s ->
      exists pc' c', nth_error (p_users st') i = Some (pc', c') /\ endless pc').
    { intros s e Us N ->. exists (UDone (RRaise e)), false. split; [apply nth_set_user; now rewrite Us|].
      destruct e; try exact Logic.I. now contradiction (N code reason). }
    destruct pc as [c0|w| | | | | | | | | | | | | | |r]; try contradiction.
    + destruct c0; try contradiction.
      destruct (step_user_start X cfg st i a st' c W Hi H) as (-> & [(-> & Q)|[(-> & Q & Q')|(-> & Hp & _ & ->)]]).
      * apply (Rs st CancelledError); auto; discriminate.
      * apply (Rs st (PyExn RuntimeError)); auto; discriminate.
      * destruct (recv_loop_endless st i L) as (pc & Q). eauto.
    + unfold step_user in H. rewrite Hi in H. destruct c.
      * destruct a; try discriminate. apply some_inj in H. cbn [cancel_call] in H.
        apply (Rs (set_pop None st) CancelledError); auto; discriminate.
      * unfold step_call in H. destruct a; try discriminate. destruct (_ || _); [|discriminate].
        apply some_inj in H as <-. unfold recv_resume. cbv zeta. rewrite Leg.
        destruct (fut_done _); [destruct (recv_loop_endless (set_pop None st) i L) as (pc & Q); eauto|].
        exists (UDone RNone), false. split; [now apply nth_set_user|exact Logic.I].
    + unfold step_user in H. rewrite Hi in H. destruct c; discriminate.
  - destruct (step_other_user X cfg st l st' i pc c W D H Hi) as (c' & Q & _). eauto.
Qed.
Theorem C83_legacy_recv_refuted :
  forall E (X : ext_ops E) cfg exts ls g,
    c_legacy_recv cfg = true -> iterating X cfg exts ls g -> ~ loop_ended g.
Proof.
  intros E X cfg exts ls g Leg H.
  assert (Q : (Base (g_conn g) /\ Recv cfg (g_conn g)) /\
    match g_pc g with
    | GRecv i => exists pc c, nth_error (p_users (g_conn g)) i = Some (pc, c) /\ endless pc
    | GReturned => False
    | _ => True
    end); [|unfold loop_ended; intros En; rewrite En in Q; now destruct Q].
  unfold iterating in H. revert g H. induction ls as [|l ls IH] using rev_ind; intros g H.
  - apply some_inj in H as <-. split; [exact (Recv_exec X cfg exts [] (initial exts) eq_refl)|exact Logic.I].
  - rewrite gexec_app in H. destruct (gexec X cfg (ginitial exts) ls) as [g1|] eqn:H1; [|discriminate].
    destruct (IH g1 eq_refl) as [[B R] F]. clear IH H1. cbn [gexec] in H.
    destruct (gstep X cfg g1 l) as [g2|] eqn:H2; [|discriminate]. apply some_inj in H as <-.
    assert (Ss : forall l st', step X cfg (g_conn g1) l = Some st' -> Base st' /\ Recv cfg st').
    { intros l0 st' S. split; [exact (Base_step X cfg _ _ _ B S)|exact (Recv_step X cfg _ _ _ B R S)]. }
    destruct l as [l| |]; cbn [gstep] in H2.
    + destruct (step X cfg (g_conn g1) l) as [st'|] eqn:S; [|discriminate]. apply some_inj in H2 as <-.
      cbn [g_conn g_pc]. split; [exact (Ss _ _ S)|]. destruct (g_pc g1); auto.
      destruct F as (pc & c & Hi & F). exact (endless_step X cfg _ _ _ _ _ _ Leg (proj1 R) Hi F S).
    + destruct (g_pc g1); try discriminate. destruct (T_exists (g_conn g1)); [|discriminate].
      destruct (step X cfg (g_conn g1) (LCall CallRecv)) as [st'|] eqn:S; [|discriminate]. apply some_inj in H2 as <-.
      cbn [g_conn g_pc]. split; [exact (Ss _ _ S)|]. cbn [step] in S. apply some_inj in S as <-.
      exists (UStart CallRecv), false. cbn [p_users set_users]. rewrite nth_error_app2, Nat.sub_diag by lia. split; [reflexivity|exact Logic.I].
    + destruct (g_pc g1); try discriminate. destruct F as (pc & c & Hi & F). rewrite Hi in H2.
      destruct pc as [| | | | | | | | | | | | | | | |[|m|w|[]]]; try discriminate; try contradiction;
        apply some_inj in H2 as <-; (split; [now split|exact Logic.I]).
Qed.
(* but yields None again and again. *)
Definition ex_legacy : config := {|
  c_client := true; c_max_size := Some 100%Z; c_max_queue := Some 1; c_close_timeout := Some 10;
  c_ping_interval := Some 20; c_ping_timeout := Some 20; c_legacy_recv := true;
  c_can_write_eof := true; c_key := fun n => bs [1; 2; 3; 4] |}.
Definition ex_ask (i : nat) : list glabel := [GNext; GConn (LUser i Go); GConn (LUser i Go); GResume].
Example C83_legacy_recv_applies :
  exists g, iterating no_ext ex_legacy [] (ex_iteration [3; 232] ++ ex_ask 2 ++ ex_ask 3 ++ ex_ask 4) g /\
  match p_close (g_conn g), g_yielded g with
  | Some (1000%Z, []), [Some _; Some _; None; None; None] => true | _, _ => false
  end = true.
Proof. apply by_iterating. vm_compute. reflexivity. Qed.

Print Assumptions C83_yields_in_order.
Print Assumptions C83_normal_end.
Print Assumptions C83_exception.
Print Assumptions C83_loop_ends.
Print Assumptions C83_legacy_recv_refuted.
