(* What a call to send() writes. *)
From Verif Require Import Base.Prelude Base.PreludeFacts Base.Utf8 Model.Streams Model.Frames
  Model.LegacyFraming Model.LegacyProtocol Spec.Rfc6455 Spec.Utf8Spec Spec.Asyncio Proofs.Utf8SpecFacts
  Proofs.LegacyShapes Proofs.LegacyUsers Proofs.LegacyFields Proofs.LegacyClose Proofs.LegacyQueue
  Proofs.LegacyMessages Proofs.LegacyFragments Proofs.LegacyWriters.
Local Open Scope N_scope.

Section Send.
Context {E : Type} (X : ext_ops E) (cfg : config).
Implicit Type st : conn E.

(** What a step leaves alone when it isn't a step of the i-th call *)
Lemma step_other_user st l st' i pc c : Waiters st -> (forall a, l <> LUser i a) ->
  step X cfg st l = Some st' -> nth_error (p_users st) i = Some (pc, c) ->
  exists c', nth_error (p_users st') i = Some (pc, c') /\ (c = true -> c' = true) /\ (l <> LCancel i -> c' = c).
Proof.
  intros W Hl H Hi.
  assert (G : nth_error (p_users st') i = nth_error (p_users st) i ->
    exists c', nth_error (p_users st') i = Some (pc, c') /\ (c = true -> c' = true) /\ (l <> LCancel i -> c' = c)).
  { intros ->. exists c. split; [exact Hi|]. split; auto. }
  destruct l; cbn [step] in H.
  - apply G. destruct (p_state st); try discriminate. destruct (p_C st); try discriminate.
    now apply some_inj in H as <-.
  - apply G. destruct (fail_connection _ _ _ _) as [st2 e2] eqn:F. apply some_inj in H as <-. cbn [fst]. shapes. reflexivity.
  - apply G. destruct (r_eof _); [discriminate|]. now apply some_inj in H as <-.
  - apply G. destruct (r_eof _); [discriminate|]. now apply some_inj in H as <-.
  - apply G. assert (H' : connection_lost st o closing = st') by (destruct (p_state st); try discriminate; now apply some_inj in H).
    destruct (connection_lost_shape st o closing) as (? & ? & ? & ? & ? & Sh). rewrite Sh in H'. now subst st'.
  - apply G. now apply some_inj in H as <-.
  - apply G. now apply some_inj in H as <-.
  - apply G. apply some_inj in H as <-. cbn [p_users set_users]. apply nth_error_app1. apply nth_error_Some. congruence.
  - destruct (nth_error (p_users st) i0) as [[pc0 c0]|] eqn:Hj; [|discriminate].
    assert (H' : set_users (replace i0 (pc0, true) (p_users st)) st = st')
      by (destruct pc0; try discriminate; now apply some_inj in H).
    subst st'. cbn [p_users set_users] in *. destruct (Nat.eq_dec i0 i) as [-> |Hn].
    + exists true. rewrite nth_error_replace_eq by (apply nth_error_Some; congruence).
      rewrite Hi in Hj. injection Hj as -> _. split; [reflexivity|]. split; [reflexivity|]. congruence.
    + apply G. now rewrite nth_error_replace_neq by exact Hn.
  - apply G. pose proof (step_T_gr _ _ _ _ _ H) as (G1 & _). now rewrite G1.
  - apply G. pose proof (step_K_gr _ _ _ _ _ H) as (G1 & _). now rewrite G1.
  - apply G. apply step_C_shape in H as (? & ? & ? & ? & ? & ->). reflexivity.
  - apply G. assert (Hn : i0 <> i) by (intros ->; now apply (Hl a)).
    pose proof (step_user_uq X cfg st i0 a st' W H) as [[pc1 ? ? ? Eu ? ?|m ? ? ? Eu ?] _]; rewrite Eu;
      now rewrite nth_error_replace_neq by exact Hn.
Qed.
Lemma step_other_written st l st' i : (forall a, l <> LUser i a) ->
  step X cfg st l = Some st' -> written_by (ByCall i) st' = written_by (ByCall i) st.
Proof.
  intros Hl H. destruct l; cbn [step] in H.
  - destruct (p_state st); try discriminate. destruct (p_C st); try discriminate. now apply some_inj in H as <-.
  - destruct (fail_connection _ _ _ _) as [st2 e2] eqn:F. apply some_inj in H as <-. cbn [fst].
    exact (fail_ow X cfg i _ _ _ _ F).
  - destruct (r_eof _); [discriminate|]. now apply some_inj in H as <-.
  - destruct (r_eof _); [discriminate|]. now apply some_inj in H as <-.
  - assert (H' : connection_lost st o closing = st') by (destruct (p_state st); try discriminate; now apply some_inj in H).
    destruct (connection_lost_shape st o closing) as (? & ? & ? & ? & ? & Sh). rewrite Sh in H'. now subst st'.
  - now apply some_inj in H as <-.
  - now apply some_inj in H as <-.
  - now apply some_inj in H as <-.
  - destruct (nth_error (p_users st) i0) as [[pc0 c0]|] eqn:Hj; [|discriminate].
    assert (H' : set_users (replace i0 (pc0, true) (p_users st)) st = st')
      by (destruct pc0; try discriminate; now apply some_inj in H).
    now subst st'.
  - exact (step_T_ow X cfg i _ _ _ H).
  - exact (step_K_ow X cfg i _ _ _ H).
  - apply step_C_shape in H as (? & ? & ? & ? & ? & ->). reflexivity.
  - assert (Hn : i0 <> i) by (intros ->; now apply (Hl a)). exact (step_user_ow X cfg i i0 Hn _ _ _ H).
Qed.

(** The i-th call is send(m) *)
Section Call.
Variable i : nat.
Variable m : sendable.

Lemma prepare_content d op data : prepare_data d = Ok (op, data) <-> content d op data.
Proof.
  destruct d as [t|x|]; cbn [prepare_data content].
  - split.
    + destruct (utf8_encode t) eqn:U; [|discriminate]. intros H. apply ok_inj, pair_equal_spec in H as [<- <-].
      split; [reflexivity|]. now apply utf8_encode_spec.
    + intros [-> U]. apply utf8_encode_spec in U. now rewrite U.
  - split.
    + intros H. apply ok_inj, pair_equal_spec in H as [<- <-]. now split.
    + intros [-> ->]. reflexivity.
  - split; [discriminate|contradiction].
Qed.

(* What was written, according to the progress of the call *)
Definition Sd (items : list py_data) (pc : upc) (ws : list frame) : Prop :=
  match pc with
  | UStart c => c = CallSend m /\ ws = [] /\ (m = SAsync -> items = [])
  | USendFrag _ m' => m' = m /\ ws = [] /\ (m = SAsync -> items = [])
  | UDrain => (exists d, m = SData d) /\ sends_all m items ws
  | UFragDrain op (Sync rest e) => exists done, m = SIter items e /\ items = done ++ rest /\ fragments op done ws
  | UFragDrain op Async | UANext (Some op) => m = SAsync /\ fragments op items ws
  | UANext None => m = SAsync /\ items = [] /\ ws = []
  | UFragLast => sends_all m items ws
  | UEnsure | UFragEnsure | UDone (RRaise _) => sends_part m items ws
  | UDone RNone => sends_all m items ws
  | _ => False
  end.
Definition W st : list frame := written_by (ByCall i) st.
Definition to (items : list py_data) st st' : Prop :=
  exists pc, p_users st' = replace i (pc, false) (p_users st) /\ Sd items pc (W st').

Lemma part_fragments items op done rest ws :
  (exists its e, m = SIter its e) \/ m = SAsync -> items = done ++ rest -> fragments op done ws -> sends_part m items ws.
Proof.
  intros Hm Hi Hf. right. right. split; [destruct Hm as [(? & ? & ->)| ->]; exact Logic.I|]. now exists op, done, rest.
Qed.
Lemma raise_to items st e : sends_part m items (W st) -> to items st (raise_ i e st).
Proof. intros H. exists (UDone (RRaise e)). split; [reflexivity|exact H]. Qed.
Lemma end_fragments_to items st r : (r = RNone \/ exists e, r = RRaise e) ->
  Sd items (UDone r) (W st) -> sends_part m items (W st) -> to items st (end_fragments st i r).
Proof.
  intros Hr H1 H2. unfold end_fragments. destruct (p_frag st).
  - destruct (set_result _ _).
    + exists (UDone r). split; [reflexivity|exact H1].
    + now apply raise_to.
  - now apply raise_to.
Qed.
Lemma raise_fragments_to items st e : sends_part m items (W st) -> to items st (raise_fragments X cfg st i e).
Proof.
  intros H.
  assert (G : to items st (let '(st2, e') := fail_connection X cfg st 1011 in
      end_fragments st2 i (RRaise (match e' with Some e' => PyExn e' | None => e end)))).
  { destruct (fail_connection _ _ _ _) as [st2 e2] eqn:F.
    pose proof (fail_ow X cfg i _ _ _ _ F) as O.
    assert (U : p_users st2 = p_users st) by (shapes; reflexivity).
    assert (H2 : sends_part m items (W st2)) by (unfold W; rewrite O; exact H).
    destruct (end_fragments_to items st2 (RRaise (match e2 with Some e' => PyExn e' | None => e end))) as (pc & P1 & P2);
      [right; eauto|exact H2|exact H2|].
    exists pc. now rewrite P1, U. }
  unfold raise_fragments. destruct e; try exact G. apply end_fragments_to; [right; eauto|exact H|exact H].
Qed.
Lemma write_mine st fin op data st' e : write_frame X cfg st (ByCall i) fin op data Open = (st', e) ->
  p_users st' = p_users st /\
  ((e = None /\ W st' = W st ++ [mkframe fin op data]) \/ (exists e', e = Some e' /\ W st' = W st)).
Proof.
  intros H. apply write_frame_spec in H as [(_ & -> & ex & d & ->)|(e' & -> & ex & ->)].
  - split; [reflexivity|]. left. split; [reflexivity|]. unfold W, written_by. cbn [p_out set_out set_exts].
    rewrite filter_app, map_app. cbn [filter o_by]. destruct (writer_eq_dec _ _); [reflexivity|contradiction].
  - split; [reflexivity|]. right. now exists e'.
Qed.
Lemma fragments_snoc op items fs d data : fragments op items fs -> content d op data ->
  fragments op (items ++ [d]) (fs ++ [mkframe false CONT data]).
Proof.
  destruct items as [|x items], fs as [|f fs]; try contradiction. intros [F1 F2] C. split; [exact F1|].
  apply Forall2_app; [exact F2|]. constructor; [now exists data|constructor].
Qed.

(* one more item *)
Lemma send_item_to items st op rest d done :
  match rest with Sync r e => m = SIter items e /\ items = done ++ d :: r | Async => m = SAsync /\ items = done ++ [d] end ->
  fragments op done (W st) -> to items st (send_item X cfg st i op rest d).
Proof.
  intros Hr F.
  assert (Hm : (exists its e, m = SIter its e) \/ m = SAsync).
  { destruct rest; destruct Hr as [Hr _]; [left; eauto|now right]. }
  assert (Hp : exists r, items = done ++ r) by (destruct rest; destruct Hr as [_ Hr]; eauto).
  destruct Hp as [r Hp].
  assert (P : sends_part m items (W st)) by (apply (part_fragments items op done r); auto).
  unfold send_item. destruct (prepare_data d) as [[op' data]|e] eqn:Ed; [|now apply raise_fragments_to].
  destruct (opcode_eqb op' op) eqn:Eo; cbn [negb]; [|now apply raise_fragments_to].
  assert (op' = op) by (destruct op', op; try discriminate; reflexivity). subst op'.
  apply prepare_content in Ed.
  destruct (write_frame _ _ _ _ _ _ _ _) as [st2 e2] eqn:Wr. apply write_mine in Wr as (U & [[-> Wr]|(e' & -> & Wr)]).
  - exists (UFragDrain op rest). split; [cbn [p_users set_user set_users]; now rewrite U|].
    change (W (set_user i (UFragDrain op rest) st2)) with (W st2). rewrite Wr.
    pose proof (fragments_snoc op done (W st) d data F Ed) as F2. cbn [Sd]. destruct rest as [r0 e0|].
    + destruct Hr as [-> Hi]. exists (done ++ [d]). split; [reflexivity|]. split; [|exact F2].
      now rewrite <- app_assoc.
    + destruct Hr as [-> ->]. now split.
  - destruct (raise_fragments_to items st2 (PyExn e')) as (pc & P1 & P2); [now rewrite Wr|].
    exists pc. now rewrite P1, U.
Qed.
Lemma send_last_to items st op : (exists its e, m = SIter its e) \/ m = SAsync ->
  fragments op items (W st) -> to items st (send_last X cfg st i).
Proof.
  intros Hm F. unfold send_last.
  assert (P : sends_part m items (W st)) by (apply (part_fragments items op items []); auto using app_nil_r).
  destruct (write_frame _ _ _ _ _ _ _ _) as [st2 e2] eqn:Wr. apply write_mine in Wr as (U & [[-> Wr]|(e' & -> & Wr)]).
  - exists UFragLast. split; [cbn [p_users set_user set_users]; now rewrite U|].
    change (W (set_user i UFragLast st2)) with (W st2). rewrite Wr. cbn [Sd].
    destruct Hm as [(its & e & ->)| ->]; right; now exists op, (W st).
  - destruct (raise_fragments_to items st2 (PyExn e')) as (pc & P1 & P2); [now rewrite Wr|].
    exists pc. now rewrite P1, U.
Qed.
Lemma send_next_to items st op src done :
  match src with Sync r e => m = SIter items e /\ items = done ++ r | Async => m = SAsync /\ items = done end ->
  fragments op done (W st) -> to items st (send_next X cfg st i op src).
Proof.
  intros Hs F. destruct src as [[|d r] e|]; cbn [send_next].
  - destruct Hs as [Hm Hi]. rewrite app_nil_r in Hi. subst done. destruct e as [e|].
    + apply raise_fragments_to. apply (part_fragments items op items []); [left; eauto|now rewrite app_nil_r|exact F].
    + apply (send_last_to items st op); [left; eauto|exact F].
  - destruct Hs as [Hm Hi]. assert (G : to items st (send_item X cfg st i op (Sync r e) d)).
    { apply (send_item_to items st op (Sync r e) d done); [now split|exact F]. }
    destruct e; exact G.
  - destruct Hs as [Hm ->]. exists (UANext (Some op)). split; [reflexivity|]. now split.
Qed.
(* the first item *)
Lemma send_first_to items st rest d :
  match rest with Sync r e => m = SIter items e /\ items = d :: r | Async => m = SAsync /\ items = [d] end ->
  W st = [] -> to items st (send_first X cfg st i rest d).
Proof.
  intros Hr W0. unfold send_first.
  assert (P : sends_part m items (W st)) by (left; exact W0).
  destruct (prepare_data d) as [[op data]|e] eqn:Ed; [|now apply raise_to].
  apply prepare_content in Ed. cbv zeta.
  destruct (write_frame _ _ _ _ _ _ _ _) as [st2 e2] eqn:Wr. apply write_mine in Wr as (U & [[-> Wr]|(e' & -> & Wr)]).
  - exists (UFragDrain op rest). split; [cbn [p_users set_user set_users]; now rewrite U|].
    change (W (set_user i (UFragDrain op rest) st2)) with (W st2). rewrite Wr.
    change (W (set_frag _ _)) with (W st). rewrite W0.
    assert (F : fragments op [d] [mkframe false op data]) by (split; [now exists data|constructor]).
    cbn [Sd app]. destruct rest as [r e|].
    + destruct Hr as [-> ->]. now exists [d].
    + destruct Hr as [-> ->]. now split.
  - destruct (raise_fragments_to items st2 (PyExn e')) as (pc & P1 & P2).
    + rewrite Wr. change (W (set_frag _ _)) with (W st). exact P.
    + exists pc. now rewrite P1, U.
Qed.
Lemma send_loop_to items st : items = items_of m i [] -> W st = [] ->
  to items st (send_loop X cfg st i m).
Proof.
  intros Hi W0. unfold send_loop.
  assert (P : sends_part m items (W st)) by (left; exact W0).
  destruct (p_frag st) as [w|].
  { exists (USendFrag w m). split; [reflexivity|]. split; [reflexivity|]. split; [exact W0|]. now intros ->. }
  assert (Rs : forall e, to items st (raise_ i e st)) by (intros; now apply raise_to).
  clear P. destruct m as [d| |its e| |] eqn:Hm.
  - destruct (prepare_data d) as [[op data]|e] eqn:Ed; [|apply Rs].
    apply prepare_content in Ed.
    destruct (write_frame _ _ _ _ _ _ _ _) as [st2 e2] eqn:Wr. apply write_mine in Wr as (U & [[-> Wr]|(e' & -> & Wr)]).
    + exists UDrain. split; [cbn [p_users set_user set_users]; now rewrite U|].
      change (W (set_user i UDrain st2)) with (W st2). rewrite Wr, W0. cbn [Sd app]. rewrite Hm.
      split; [now exists d|]. now exists op, data.
    + exists (UDone (RRaise (PyExn e'))). split; [cbn [p_users raise_ return_ set_user set_users]; now rewrite U|].
      cbn [Sd]. left. change (W (raise_ i (PyExn e') st2)) with (W st2). now rewrite Wr.
  - exists (UDone (RRaise (PyExn TypeError))). split; [reflexivity|]. left. exact W0.
  - cbn [items_of] in Hi. subst items. destruct its as [|d its].
    + destruct e as [e|].
      * exists (UDone (RRaise (PyExn e))). split; [reflexivity|]. left. exact W0.
      * exists (UDone RNone). split; [reflexivity|]. cbn [Sd]. rewrite Hm. left. now split.
    + assert (G : to (d :: its) st (send_first X cfg st i (Sync its e) d))
        by (apply send_first_to; [now split|exact W0]).
      destruct e; exact G.
  - exists (UANext None). split; [reflexivity|]. split; [exact Hm|]. split; [exact Hi|exact W0].
  - exists (UDone (RRaise (PyExn TypeError))). split; [reflexivity|]. left. exact W0.
Qed.

Lemma whole_part items ws : sends_all m items ws -> sends_part m items ws.
Proof. intros H. right. now left. Qed.
Lemma Sd_part items pc ws : Sd items pc ws -> (exists r, pc = UDone r) \/ sends_part m items ws.
Proof.
  unfold Sd. intros H. destruct pc as [c|w|w m0| | |op [rest e|]| | |[op|]|data|d t|d t|d t|t|t| |r]; try contradiction.
  all: try (right; left; tauto).
  all: try (right; apply whole_part; tauto).
  - now right.
  - right. destruct H as (done & H1 & H2 & H3). apply (part_fragments items op done rest); [left; eauto|assumption|assumption].
  - right. destruct H as (H1 & H3). apply (part_fragments items op items []); [now right|now rewrite app_nil_r|assumption].
  - now right.
  - right. destruct H as (H1 & H3). apply (part_fragments items op items []); [now right|now rewrite app_nil_r|assumption].
  - left. now exists r.
Qed.
Definition more (a : act) : list py_data := match m, a with SAsync, Next (Item d) => [d] | _, _ => [] end.
Lemma step_user_send st a st' items pc c :
  nth_error (p_users st) i = Some (pc, c) -> Sd items pc (W st) -> (m <> SAsync -> items = items_of m i []) ->
  step_user X cfg st i a = Some st' -> to (items ++ more a) st st'.
Proof.
  intros Hi S0 Hit H. unfold step_user in H. rewrite Hi in H.
  assert (P := Sd_part _ _ _ S0).
  assert (N : forall st1, to items st st1 -> more a = [] -> to (items ++ more a) st st1).
  { intros st1 Q ->. now rewrite app_nil_r. }
  assert (Sa : forall st1 st2, p_users st1 = p_users st -> to items st1 st2 -> to items st st2).
  { intros st1 st2 U (pc1 & Q1 & Q2). exists pc1. now rewrite Q1, U. }
  assert (M : a = Go -> more a = []) by (intros ->; unfold more; now destruct m).
  destruct c.
  - destruct a; try (destruct pc; discriminate).
    assert (H' : st' = cancel_call X cfg st i pc /\ forall r, pc <> UDone r)
      by (destruct pc; try discriminate; apply some_inj in H as <-; split; (reflexivity || discriminate)).
    destruct H' as [-> Hd]. apply N; [|now apply M]. destruct P as [(r & P)|P]; [now apply Hd in P|].
    unfold cancel_call. destruct pc; try contradiction; try (now apply raise_to); try (now apply raise_fragments_to).
    destruct op; [now apply raise_fragments_to|now apply raise_to].
  - assert (D : forall (k1 : conn E -> conn E) (k2 : conn E -> pexn -> conn E) (k3 : conn E -> conn E),
      (forall s, p_users s = p_users st -> W s = W st -> to items st (k1 s)) ->
      (forall s e, p_users s = p_users st -> W s = W st -> to items st (k2 s e)) ->
      (forall s, p_users s = p_users st -> W s = W st -> to items st (k3 s)) ->
      match after_drain X cfg st a with
      | Some (s2, EOk) => Some (k1 s2)
      | Some (s2, ERaise e) => Some (k2 s2 e)
      | Some (s2, EWait) => Some (k3 s2)
      | None => None
      end = Some st' -> to (items ++ more a) st st').
    { intros k1 k2 k3 H1 H2 H3 Q. destruct (after_drain _ _ _ _) as [[s2 r]|] eqn:Dr; [|discriminate].
      assert (Wo := after_drain_ow X cfg i _ _ _ _ Dr).
      assert (Ma : more a = []) by (unfold after_drain in Dr; destruct a; try discriminate; unfold more; now destruct m).
      apply N; [|exact Ma].
      assert (U : p_users s2 = p_users st) by (apply after_drain_shape in Dr as (? & ? & ? & ? & ? & ->); reflexivity).
      destruct r; apply some_inj in Q as <-; [now apply H1|now apply H2|now apply H3]. }
    assert (Rs : forall s e, p_users s = p_users st -> W s = W st -> sends_part m items (W st) ->
               to items st (raise_ i e s)).
    { intros s e U Ws Q. apply (Sa s); [exact U|]. apply raise_to. now rewrite Ws. }
    assert (Rf : forall s e, p_users s = p_users st -> W s = W st -> sends_part m items (W st) ->
               to items st (raise_fragments X cfg s i e)).
    { intros s e U Ws Q. apply (Sa s); [exact U|]. apply raise_fragments_to. now rewrite Ws. }
    destruct pc as [c|w|w m0| | |op src| | |[op|]|data|d t|d t|d t|t|t| |r]; try contradiction.
    + destruct S0 as (-> & S1 & S2). unfold step_call, start_call in H. destruct a; try discriminate.
      apply some_inj in H as <-. apply N; [|now apply M]. destruct (ensure_open st).
      * apply send_loop_to; [|exact S1]. destruct m eqn:Hm; try (apply Hit; discriminate). now rewrite S2.
      * destruct P as [(r & P)|P]; [discriminate|]. now apply Rs.
      * exists UEnsure. split; [reflexivity|]. left. exact S1.
    + destruct S0 as (-> & S1 & S2). unfold step_call in H. destruct a; try discriminate.
      destruct (fut_done _); [|discriminate]. apply some_inj in H as <-. apply N; [|now apply M].
      apply send_loop_to; [|exact S1]. destruct m eqn:Hm; try (apply Hit; discriminate). now rewrite S2.
    + unfold step_call in H. destruct a; try discriminate.
      destruct (ensure_open_end st); [|discriminate]. apply some_inj in H as <-. apply N; [|now apply M].
      now apply Rs.
    + destruct S0 as [S0 S1]. eapply (D (fun s => return_ i RNone s) (fun s e => raise_ i e s) (fun s => set_user i UEnsure s)); [..|exact H].
      * intros s U Ws. exists (UDone RNone). cbn [p_users return_ set_user set_users]. rewrite U. split; [reflexivity|].
        cbn [Sd]. change (W (return_ i RNone s)) with (W s). now rewrite Ws.
      * intros s e U Ws. apply Rs; auto. now apply whole_part.
      * intros s U Ws. exists UEnsure. cbn [p_users set_user set_users]. rewrite U. split; [reflexivity|].
        cbn [Sd]. change (W (set_user i UEnsure s)) with (W s). rewrite Ws. now apply whole_part.
    + destruct P as [(r & P)|P]; [discriminate|].
      assert (Sx : exists done, match src with Sync r e => m = SIter items e /\ items = done ++ r
                                          | Async => m = SAsync /\ items = done end /\ fragments op done (W st)).
      { cbn [Sd] in S0. destruct src as [r e|]; [destruct S0 as (done & S1 & S2 & S3)|destruct S0 as (S1 & S3)].
        - exists done. split; [now split|exact S3].
        - exists items. split; [now split|exact S3]. }
      destruct Sx as (done & Sx1 & Sx2).
      eapply (D (fun s => send_next X cfg s i op src) (fun s e => raise_fragments X cfg s i e)
             (fun s => set_user i UFragEnsure s)); [..|exact H].
      * intros s U Ws. apply (Sa s); [exact U|]. apply (send_next_to items s op src done); [exact Sx1|now rewrite Ws].
      * intros s e U Ws. now apply Rf.
      * intros s U Ws. exists UFragEnsure. cbn [p_users set_user set_users]. rewrite U. split; [reflexivity|].
        cbn [Sd]. change (W (set_user i UFragEnsure s)) with (W s). now rewrite Ws.
    + destruct P as [(r & P)|P]; [discriminate|].
      eapply (D (fun s => end_fragments s i RNone) (fun s e => raise_fragments X cfg s i e)
             (fun s => set_user i UFragEnsure s)); [..|exact H].
      * intros s U Ws. apply (Sa s); [exact U|]. apply end_fragments_to; [now left|now rewrite Ws|now rewrite Ws].
      * intros s e U Ws. now apply Rf.
      * intros s U Ws. exists UFragEnsure. cbn [p_users set_user set_users]. rewrite U. split; [reflexivity|].
        cbn [Sd]. change (W (set_user i UFragEnsure s)) with (W s). now rewrite Ws.
    + unfold step_call in H. destruct a; try discriminate.
      destruct (ensure_open_end st); [|discriminate]. apply some_inj in H as <-. apply N; [|now apply M]. now apply Rf.
    + destruct P as [(r & P)|P]; [discriminate|]. destruct S0 as [S1 S2].
      unfold step_call in H. destruct a as [| | | | |[d| |e]]; try discriminate; apply some_inj in H as <-.
      * apply (send_item_to (items ++ more (Next (Item d))) st op Async d items); [|exact S2].
        split; [exact S1|]. unfold more. now rewrite S1.
      * apply N; [|unfold more; now destruct m]. apply (send_last_to items st op); [now right|exact S2].
      * apply N; [|unfold more; now destruct m]. now apply Rf.
    + destruct P as [(r & P)|P]; [discriminate|]. destruct S0 as (S1 & S2 & S3).
      unfold step_call in H. destruct a as [| | | | |[d| |e]]; try discriminate; apply some_inj in H as <-.
      * apply (send_first_to (items ++ more (Next (Item d))) st Async d); [|exact S3].
        split; [exact S1|]. unfold more. rewrite S1, S2. reflexivity.
      * apply N; [|unfold more; now destruct m]. exists (UDone RNone). split; [reflexivity|]. cbn [Sd]. rewrite S1.
        left. now split.
      * apply N; [|unfold more; now destruct m]. now apply Rs.
    + discriminate.
Qed.

Lemma yielded_app ls1 ls2 : yielded i (ls1 ++ ls2) = yielded i ls1 ++ yielded i ls2.
Proof. apply flat_map_app. Qed.
Lemma Send_exec st ls st' before pc c : Base st -> Recv cfg st -> exec X cfg st ls = Some st' ->
  nth_error (p_users st) i = Some (pc, c) -> Sd (items_of m i before) pc (W st) ->
  exists pc' c', nth_error (p_users st') i = Some (pc', c') /\ Sd (items_of m i (before ++ ls)) pc' (W st').
Proof.
  revert st before pc c. induction ls as [|l ls IH]; cbn [exec]; intros st before pc c B R H Hi S0.
  - apply some_inj in H as <-. rewrite app_nil_r. now exists pc, c.
  - destruct (step X cfg st l) as [st1|] eqn:S1; [|discriminate].
    assert (B1 : Base st1) by exact (Base_step X cfg st l st1 B S1).
    assert (R1 : Recv cfg st1) by exact (Recv_step X cfg st l st1 B R S1).
    pose proof R as (Wt & _).
    replace (before ++ l :: ls) with ((before ++ [l]) ++ ls) by (now rewrite <- app_assoc).
    assert (D : (exists a, l = LUser i a) \/ (forall a, l <> LUser i a)).
    { destruct l; try (right; discriminate). destruct (Nat.eq_dec i0 i) as [-> |Hn]; [left; eauto|right; congruence]. }
    destruct D as [(a & ->)|D].
    + destruct (step_user_send st a st1 (items_of m i before) pc c) as (pc1 & Q1 & Q2); auto.
      { intros Hm. destruct m; try reflexivity. contradiction. }
      eapply (IH st1); eauto.
      * rewrite Q1. apply nth_error_replace_eq. apply nth_error_Some. congruence.
      * replace (items_of m i (before ++ [LUser i a])) with (items_of m i before ++ more a); [exact Q2|].
        unfold items_of, more. destruct m; try apply app_nil_r. rewrite yielded_app. f_equal.
        destruct a as [| | | | |[]]; try reflexivity. cbn [yielded flat_map].
        destruct (Nat.eq_dec i i); [reflexivity|contradiction].
    + destruct (step_other_user st l st1 i pc c Wt D S1 Hi) as (c' & Q1 & _).
      eapply (IH st1); eauto. replace (items_of m i (before ++ [l])) with (items_of m i before).
      * unfold W. rewrite (step_other_written st l st1 i D S1). exact S0.
      * unfold items_of. destruct m; try reflexivity. rewrite yielded_app.
        replace (yielded i [l]) with (@nil py_data); [now rewrite app_nil_r|].
        destruct l; try reflexivity. cbn [yielded flat_map]. destruct a as [| | | | |[]]; try reflexivity.
        destruct (Nat.eq_dec i0 i) as [-> |]; [now destruct (D (Next (Item d)))|reflexivity].
Qed.
End Call.
End Send.
