(* The asyncio connection and the sans-I/O connection process what they receive in the same way (without
   extensions). *)
From Verif Require Import Base.Prelude Base.PreludeFacts Base.Utf8 Model.Utils Model.Streams Model.Frames
  Spec.Rfc6455 Spec.FrameSpec Spec.Messages Spec.History
  Proofs.StreamsFacts Proofs.FramesFacts Proofs.ParserFacts Properties.FrameCodec Proofs.ParserRun
  Model.LegacyFraming Model.LegacyProtocol Spec.Asyncio Spec.AsyncioCloseCodes
  Proofs.LegacyPrims Proofs.LegacyFields Proofs.LegacyShapes Proofs.LegacyUsers Proofs.LegacyClose
  Proofs.LegacyQueue Proofs.LegacyMessages Proofs.LegacyWire Proofs.LegacyRead Proofs.LegacyPeer.
Local Open Scope N_scope.

Section Alike.
Context (cfg : config) (keys : nat -> Model.Connection.key4).
Hypothesis Hmax : forall m, c_max_size cfg = Some m -> (0 <= m)%Z.
Implicit Type st : conn Empty_set.
Definition same_side : Model.Connection.side := if c_client cfg then Model.Connection.CLIENT else Model.Connection.SERVER.
Definition c0 : sconn := Model.Connection.new_conn same_side Model.Connection.OPEN (c_max_size cfg) keys.
Notation events := Model.Connection.c_events.

(* n: the size of the message in progress in context c *)
Definition follows (c : rctx) (n : option Z) : Prop :=
  match c with RFirst => n = None | RText _ _ m | RBinary _ m => m = limit c0 n /\ n <> None end.
(* the messages received; n: as above *)
Definition Order (n : option Z) (fs : list frame) : Prop :=
  exists done cur, data_frames fs = concat done ++ cur /\ Forall complete_message done /\
    match n with None => cur = [] | Some _ => unfinished_message cur end.
Definition At (p : bytes) (c : rctx) (fs : list frame) : Prop :=
  exists n x, follows c n /\ Sim c0 p x /\ Ready c0 n fs x /\ Order n fs.
Definition Stopped (p : bytes) (fs : list frame) : Prop := exists x, Sim c0 p x /\ events x = map Model.Connection.EvFrame fs.
Definition Failed (p : bytes) (fs : list frame) : Prop :=
  exists e good bad, fs = good ++ bad /\ Fatal c0 p e good /\
    (bad = [] \/ exists f, bad = [f] /\ (is_data_b f = true -> exists n, Order n good /\ ~ in_order n f)).
Definition Ended (fed : bytes) (fs : list frame) : Prop :=
  exists p rest, fed = p ++ rest /\ (Stopped p fs \/ Failed p fs).
Definition Alike (fed : bytes) st : Prop :=
  match p_T st with
  | TNone => fed = r_buffer (p_reader st) /\ p_in st = []
  | TRead c | TPongDrain c | TPongEnsure c => exists p, fed = p ++ r_buffer (p_reader st) /\ At p c (p_in st)
  | TPut _ _ => exists p, fed = p ++ r_buffer (p_reader st) /\ At p RFirst (p_in st)
  | TCloseDrain _ | TCloseEnsure _ | TDone _ => Ended fed (p_in st)
  end.

Lemma server_side : Model.Connection.is_server (Model.Connection.c_side c0) = negb (c_client cfg).
Proof. unfold c0, same_side. now destruct (c_client cfg). Qed.
Lemma follows_limit c n : follows c n -> read_limit cfg c = limit c0 n.
Proof. destruct c; cbn [follows read_limit]; [intros ->|tauto|tauto]. unfold limit. cbn. now destruct (c_max_size cfg). Qed.
Lemma At_stopped p c fs : At p c fs -> Stopped p fs.
Proof. intros (n & x & _ & S & R & _). exists x. split; [exact S|exact (rd_events c0 n fs x R)]. Qed.
Lemma Ended_more fed d fs : Ended fed fs -> Ended (fed ++ d) fs.
Proof. intros (p & rest & -> & H). exists p, (rest ++ d). now rewrite app_assoc. Qed.
Lemma At_start : At [] RFirst [].
Proof.
  exists None, c0. split; [reflexivity|]. split; [apply Sim_start|]. split.
  - constructor; try reflexivity. exact Hmax.
  - exists [], []. repeat split. constructor.
Qed.

(* any end of the task *)
Lemma T_raise_ended fed st e : Ended fed (p_in st) -> Alike fed (T_raise no_ext cfg st e).
Proof.
  intros H. unfold Alike. destruct (T_raise_shape no_ext cfg st e) as (? & ? & ? & ? & ? & ? & ->). exact H.
Qed.
Lemma after_close_ended fed st c : Ended fed (p_in st) -> Alike fed (after_close no_ext cfg st c).
Proof. intros H. unfold after_close. destruct c; [exact H|now apply T_raise_ended|now apply T_raise_ended]. Qed.
Lemma put_message_at fed p st m : fed = p ++ r_buffer (p_reader st) -> At p RFirst (p_in st) -> Alike fed (put_message no_ext cfg st m).
Proof.
  intros F A. unfold put_message. destruct (room cfg st); [|now exists p].
  destruct (p_pop _); [|now exists p]. destruct (set_result _ _); [now exists p|].
  apply T_raise_ended. exists p, (r_buffer (p_reader st)). split; [exact F|]. left. exact (At_stopped _ _ _ A).
Qed.

Lemma unfinished_more cur f : unfinished_message cur -> f_opcode f = CONT -> f_fin f = false -> unfinished_message (cur ++ [f]).
Proof.
  intros (g & r & -> & H1 & H2 & H3) Hc Hf. exists g, (r ++ [f]). split; [reflexivity|].
  split; [exact H1|]. split; [exact H2|]. apply Forall_app. split; [exact H3|].
  constructor; [|constructor]. split; [exact Hc|]. unfold final. congruence.
Qed.
Lemma Order_next n fs f : Order n fs -> in_order n f -> Order (size_after n f) (fs ++ [f]).
Proof.
  intros (done & cur & D & C & N) O. unfold Order, data_frames in *. rewrite filter_app, D. cbn [filter].
  unfold size_after, in_order, is_data_b in *.
  assert (Fin : forall m, cur ++ [f] = m -> complete_message m ->
    exists d c, (concat done ++ cur) ++ [f] = concat d ++ c /\ Forall complete_message d /\ c = []).
  { intros m <- Cm. exists (done ++ [cur ++ [f]]), []. split; [|split; [apply Forall_app; now split; [|constructor]|reflexivity]].
    rewrite concat_app. cbn [concat]. now rewrite !app_nil_r, app_assoc. }
  assert (Unf : unfinished_message (cur ++ [f]) ->
    exists d c, (concat done ++ cur) ++ [f] = concat d ++ c /\ Forall complete_message d /\ unfinished_message c).
  { intros U. exists done, (cur ++ [f]). split; [now rewrite app_assoc|now split]. }
  destruct (f_opcode f) eqn:Op, n as [k|]; try contradiction; try subst cur;
    try (exists done; eexists; rewrite app_nil_r; split; [reflexivity|now split]);
    (destruct (f_fin f) eqn:Ff; [eapply Fin; [reflexivity|]|apply Unf]).
  all: try (left; exists f; split; [reflexivity|]; split; [unfold opens; tauto|exact Ff]).
  all: try (exists f, []; split; [reflexivity|]; split; [unfold opens; tauto|]; split; [unfold final; congruence|constructor]).
  - right. exists cur, f. auto.
  - now apply unfinished_more.
Qed.

(* a frame is read *)
Lemma on_frame_alike p n x fs c f w st : follows c n -> Sim c0 p x -> Ready c0 n fs x -> arrives c0 n f w -> check f = Ok tt ->
  Order n fs -> p_in st = fs ++ [f] -> Alike ((p ++ w) ++ r_buffer (p_reader st)) (on_frame no_ext cfg st c f).
Proof.
  intros Fo S R A Ck Or Hin.
  set (fed := (p ++ w) ++ r_buffer (p_reader st)).
  assert (Good : f_opcode f <> CLOSE -> in_order n f -> exists x1, Sim c0 (p ++ w) x1 /\ Ready c0 (size_after n f) (p_in st) x1)
    by (rewrite Hin; exact (Sim_frame c0 p n fs x f w S R A Ck)).
  assert (End : f_opcode f <> CLOSE -> in_order n f -> Ended fed (p_in st)).
  { intros N O. destruct (Good N O) as (x1 & S1 & R1). exists (p ++ w), (r_buffer (p_reader st)). split; [reflexivity|].
    left. exists x1. split; [exact S1|exact (rd_events _ _ _ _ R1)]. }
  assert (Bad : forall e, (is_data_b f = true -> ~ in_order n f) -> Fatal c0 (p ++ w) e fs -> Ended fed (p_in st)).
  { intros e Ni Fa. exists (p ++ w), (r_buffer (p_reader st)). split; [reflexivity|]. right. exists e, fs, [f].
    split; [exact Hin|]. split; [exact Fa|]. right. exists f. split; [reflexivity|]. intros D. exists n. auto. }
  assert (Nxt : in_order n f -> Order (size_after n f) (p_in st)) by (rewrite Hin; now apply Order_next).
  assert (Ctl : f_opcode f = CLOSE -> is_data_b f = true -> ~ in_order n f)
    by (intros Q; unfold is_data_b; rewrite Q; discriminate).
  assert (Data : is_data_b f = true -> Alike fed
       match read_message cfg c f with
       | RMsg m => put_message no_ext cfg st m
       | RNext c => set_T (TRead c) st
       | RExn e => T_raise no_ext cfg st (PyExn e)
       end).
  { intros D. unfold is_data_b in D.
    assert (Nc : f_opcode f <> CLOSE) by (intros Q; rewrite Q in D; discriminate).
    assert (O : in_order n f \/ ~ in_order n f) by (unfold in_order; destruct (f_opcode f), n; tauto).
    destruct O as [O|O].
    - destruct (Good Nc O) as (x1 & S1 & R1).
      assert (Em : f_fin f = true -> At (p ++ w) RFirst (p_in st)).
      { intros Ff. exists (size_after n f), x1. split; [|auto]. unfold size_after. rewrite Ff.
        destruct (f_opcode f); try discriminate; reflexivity. }
      assert (Sz : f_fin f = false -> size_after n f = Some (match n with Some k => k | None => 0 end + lenZ (f_data f))%Z).
      { intros Ff. unfold size_after. rewrite Ff. destruct (f_opcode f); try discriminate; reflexivity. }
      assert (Mi : f_fin f = false -> minus (limit c0 n) (f_data f) = limit c0 (size_after n f)).
      { intros Ff. rewrite (Sz Ff). unfold limit, minus. destruct (Model.Connection.c_max_size c0); [|reflexivity].
        destruct n; f_equal; lia. }
      assert (Nx : forall c', f_fin f = false -> follows c' (size_after n f) -> Alike fed (set_T (TRead c') st)).
      { intros c' Ff F'. exists (p ++ w). split; [reflexivity|]. exists (size_after n f), x1. auto. }
      assert (Ok1 : forall m, f_fin f = true -> Alike fed (put_message no_ext cfg st m)).
      { intros m Ff. apply (put_message_at fed (p ++ w)); [reflexivity|auto]. }
      assert (Ex : forall e, Alike fed (T_raise no_ext cfg st (PyExn e))) by (intros e; apply T_raise_ended; auto).
      assert (Tx : forall chunks pending mx, mx = limit c0 n -> Alike fed
         match text_chunk chunks pending mx f with
         | RMsg m => put_message no_ext cfg st m
         | RNext c => set_T (TRead c) st
         | RExn e => T_raise no_ext cfg st (PyExn e)
         end).
      { intros chunks pending mx ->. unfold text_chunk. destruct (utf8_inc_decode _ _ _) as [? [?|]]; [|apply Ex].
        destruct (f_fin f) eqn:Ff; [now apply Ok1|]. apply Nx; [reflexivity|]. cbn [follows].
        split; [now apply Mi|rewrite (Sz eq_refl); discriminate]. }
      assert (Bi : forall chunks mx, mx = limit c0 n -> Alike fed
         match binary_chunk chunks mx f with
         | RMsg m => put_message no_ext cfg st m
         | RNext c => set_T (TRead c) st
         | RExn e => T_raise no_ext cfg st (PyExn e)
         end).
      { intros chunks mx ->. unfold binary_chunk.
        destruct (f_fin f) eqn:Ff; [now apply Ok1|]. apply Nx; [reflexivity|]. cbn [follows].
        split; [now apply Mi|rewrite (Sz eq_refl); discriminate]. }
      pose proof (follows_limit c n Fo) as Fl. unfold read_message.
      destruct c as [|ch pe mx|ch mx]; cbn [read_limit follows] in Fl, Fo.
      + destruct (f_opcode f); try apply Ex.
        * destruct (f_fin f) eqn:Ff; [destruct (utf8_decode _); [now apply Ok1|apply Ex]|now apply Tx].
        * destruct (f_fin f) eqn:Ff; [now apply Ok1|now apply Bi].
      + destruct (f_opcode f); try apply Ex; now apply Tx.
      + destruct (f_opcode f); try apply Ex; now apply Bi.
    - destruct (Fatal_order c0 p n fs x f w S R A Ck O) as (msg & Fa).
      assert (read_message cfg c f = RExn (ProtocolError (s "unexpected opcode"))) as ->; [|apply T_raise_ended; eapply Bad; eauto].
      unfold in_order in O. unfold read_message.
      destruct c; cbn [follows] in Fo; [subst n|destruct Fo as [_ Fo]|destruct Fo as [_ Fo]];
        destruct (f_opcode f); try discriminate; try reflexivity; try tauto; destruct n; tauto. }
  unfold is_data_b in Data. unfold on_frame. destruct (f_opcode f) eqn:Op; try exact (Data eq_refl).
  - assert (En : forall k, parse_close (f_data f) = Ok k -> Ended fed (p_in st)).
    { intros k Pc. destruct n as [k0|].
      - destruct (Fatal_incomplete c0 p k0 fs x f w k S R A Ck Op Pc) as (msg & Fa). eapply Bad; eauto.
      - destruct (Sim_close c0 p fs x f w k S R A Ck Op Pc) as (x1 & S1 & E1).
        exists (p ++ w), (r_buffer (p_reader st)). split; [reflexivity|]. left. exists x1. split; [exact S1|now rewrite Hin]. }
    destruct (parse_close _) as [k|e] eqn:Pc.
    + specialize (En k eq_refl). destruct (write_close_frame _ _ _ _ _) as [st2 [[e|]|]] eqn:W.
      * apply T_raise_ended. shapes. exact En.
      * shapes. exact En.
      * apply after_close_ended. shapes. exact En.
    + apply T_raise_ended. exact (Bad e (Ctl eq_refl) (Fatal_close c0 p n fs x f w e S R A Ck Op Pc)).
  - assert (O : in_order n f) by (unfold in_order; rewrite Op; exact Logic.I).
    destruct (Good ltac:(discriminate) O) as (x1 & S1 & R1). pose proof (Nxt O) as O1. unfold size_after in R1, O1. rewrite Op in R1, O1.
    destruct (ensure_open _); [|apply T_raise_ended; apply End; [discriminate|exact O]|].
    + destruct (write_frame _ _ _ _ _ _ _ _) as [st2 [e|]] eqn:W.
      * apply T_raise_ended. shapes. apply End; [discriminate|exact O].
      * shapes. exists (p ++ w). split; [reflexivity|]. exists n, x1. auto.
    + exists (p ++ w). split; [reflexivity|]. exists n, x1. auto.
  - assert (O : in_order n f) by (unfold in_order; rewrite Op; exact Logic.I).
    destruct (Good ltac:(discriminate) O) as (x1 & S1 & R1). pose proof (Nxt O) as O1. unfold size_after in R1, O1. rewrite Op in R1, O1.
    destruct (receive_pong_shape st (f_data f)) as (? & ? & ->).
    exists (p ++ w). split; [reflexivity|]. exists n, x1. auto.
Qed.

Lemma read_arrives c n r exts f r' exts' : follows c n ->
  run (legacy_read no_ext (negb (c_client cfg)) (read_limit cfg c)) r exts = ODone f r' exts' ->
  exists w, r_buffer r = w ++ r_buffer r' /\ arrives c0 n f w /\ check f = Ok tt.
Proof.
  intros Fo. change (@legacy_read Empty_set no_ext) with (frame_parse no_ext). destruct exts as [|[]]. rewrite frame_parse_noext.
  destruct (run (parse_wire _ _) r []) as [g r1 x1|f1 r1 x1|e1 r1 x1] eqn:W; try discriminate.
  destruct (check f1) as [[]|] eqn:Ck; [|discriminate]. intros Q. injection Q as -> -> _.
  apply parse_wire_inv in W as (_ & _ & w & key & Hb & L & M & F). exists w. split; [exact Hb|]. split; [|exact Ck].
  exists key. split; [exact L|]. rewrite server_side. split; [exact M|]. now rewrite <- (follows_limit c n Fo).
Qed.
Lemma read_fails c n p x fs r exts e r' exts' : follows c n -> Sim c0 p x -> Ready c0 n fs x ->
  run (legacy_read no_ext (negb (c_client cfg)) (read_limit cfg c)) r exts = OFail e r' exts' ->
  e = EOFError \/ exists q rest, r_buffer r = q ++ rest /\ Fatal c0 (p ++ q) e fs.
Proof.
  intros Fo S R H. apply run_ends in H as [H|(r'' & H)]; [now left| |apply ends_read]. right.
  change (flowing r) with (stream (r_buffer r)) in H. rewrite <- server_side, (follows_limit c n Fo) in H.
  exact (Fatal_read c0 p n fs x _ _ _ _ _ S R H).
Qed.

Lemma step_T_alike fed st a st' : Alike fed st -> step_T no_ext cfg st a = Some st' -> Alike fed st'.
Proof.
  intros Al H. unfold step_T in H. unfold Alike in Al.
  assert (Ok1 : Ended fed (p_in st) \/ p_T st = TNone).
  { destruct (p_T st) as [|c|c|c|c|c|m w|e]; auto; left; try exact Al; destruct Al as (p & F & A);
      exists p, (r_buffer (p_reader st)); (split; [exact F|left; exact (At_stopped _ _ _ A)]). }
  destruct (p_T st) as [|c|c|c|c|c|m w|e] eqn:HT; try discriminate; destruct Ok1 as [En|Q]; try discriminate Q; (destruct (p_Tcancel st);
    [destruct a; try discriminate; apply some_inj in H as <-; apply T_raise_ended; exact En|]).
  - destruct a; try discriminate. unfold read_frame in H. destruct Al as (p & F & n & x & Fo & S & R & Or).
    assert (G : match run (legacy_read no_ext (negb (c_client cfg)) (read_limit cfg c)) (p_reader st) (p_exts st) with
      | OSusp _ _ _ => None
      | OFail e r exts => Some (T_raise no_ext cfg (set_reader r (set_exts exts st)) (PyExn e))
      | ODone f r exts => Some (on_frame no_ext cfg (set_in (p_in st ++ [f]) (set_reader r (set_exts exts st))) c f)
      end = Some st' -> Alike fed st').
    { clear H. intros H. destruct (run _ _ _) as [? ? ?|f r ex|e r ex] eqn:Run; try discriminate; apply some_inj in H as <-.
      - destruct (read_arrives c n _ _ _ _ _ Fo Run) as (w & Hb & A & Ck). rewrite F, Hb, app_assoc.
        refine (on_frame_alike p n x (p_in st) c f w (set_in (p_in st ++ [f]) (set_reader r (set_exts ex st))) Fo S R A Ck Or eq_refl).
      - apply T_raise_ended. destruct (read_fails c n p x (p_in st) _ _ _ _ _ Fo S R Run) as [->|(q & rest & Hb & Fa)]; [exact En|].
        exists (p ++ q), rest. split; [rewrite F, Hb; apply app_assoc|]. right. exists e, (p_in st), [].
        split; [symmetry; apply app_nil_r|]. split; [exact Fa|now left]. }
    destruct (p_lost st) as [[o|]|] eqn:L; [|now apply G|now apply G].
    apply some_inj in H as <-. now apply T_raise_ended.
  - destruct (after_drain no_ext cfg st a) as [[st2 r]|] eqn:D; [|discriminate]. shapes.
    destruct r; apply some_inj in H as <-; [exact Al|now apply T_raise_ended|exact Al].
  - destruct a; try discriminate. destruct (ensure_open_end st); [|discriminate].
    apply some_inj in H as <-. now apply T_raise_ended.
  - destruct (after_drain no_ext cfg st a) as [[st2 r]|] eqn:D; [|discriminate]. shapes.
    destruct r; apply some_inj in H as <-; [now apply after_close_ended|destruct (is_closed_exn e); [now apply after_close_ended|now apply T_raise_ended]|exact Al].
  - destruct a; try discriminate. destruct (ensure_open_end st); [|discriminate].
    apply some_inj in H as <-. destruct (is_closed_exn p); [now apply after_close_ended|now apply T_raise_ended].
  - destruct a; try discriminate. destruct (fut_done _); [|discriminate]. apply some_inj in H as <-.
    destruct Al as (p & F & A). now apply (put_message_at fed p).
Qed.

Lemma Alike_step fed st l st' : Base st -> Alike fed st -> step no_ext cfg st l = Some st' -> Alike (fed ++ incoming [l]) st'.
Proof.
  intros B Al H.
  assert (Same : (forall d, l <> LData d) -> p_in st' = p_in st -> r_buffer (p_reader st') = r_buffer (p_reader st) ->
                 p_T st' = p_T st -> Alike (fed ++ incoming [l]) st').
  { intros Hl A1 A2 A3. replace (incoming [l]) with (@nil byte) by (destruct l; try reflexivity; now contradiction (Hl data)).
    rewrite app_nil_r. unfold Alike in *. now rewrite A1, A2, A3. }
  destruct l; cbn [step] in H.
  - destruct (p_state st) eqn:Es; try discriminate. destruct (p_C st); try discriminate.
    apply some_inj in H as <-. unfold Alike in *. cbn [incoming flat_map]. rewrite app_nil_r.
    destruct B as (_ & _ & _ & S0).
    assert (HT : p_T st = TNone) by (destruct (p_T st) eqn:E0; try reflexivity; exfalso; apply S0; congruence).
    rewrite HT in Al. destruct Al as [Al1 Al2].
    cbn -[At Ended]. exists []. split; [exact Al1|]. rewrite Al2. exact At_start.
  - destruct (fail_connection _ _ _ _) as [st2 e2] eqn:F. apply some_inj in H as <-. shapes.
    apply Same; try reflexivity; discriminate.
  - destruct (r_eof _); [discriminate|]. apply some_inj in H as <-. unfold Alike in *.
    cbn [incoming flat_map p_T p_in p_reader set_reader r_buffer]. rewrite app_nil_r.
    destruct (p_T st); try (now apply Ended_more).
    + destruct Al as [-> A]. now split.
    + destruct Al as (p & -> & A). exists p. now rewrite app_assoc.
    + destruct Al as (p & -> & A). exists p. now rewrite app_assoc.
    + destruct Al as (p & -> & A). exists p. now rewrite app_assoc.
    + destruct Al as (p & -> & A). exists p. now rewrite app_assoc.
  - destruct (r_eof _); [discriminate|]. apply some_inj in H as <-. apply Same; try reflexivity; discriminate.
  - assert (H' : connection_lost st o closing = st') by (destruct (p_state st); congruence).
    clear H. subst st'.
    pose proof (connection_lost_fields st o closing) as (_ & _ & _ & Q & _).
    apply Same; [discriminate|exact Q| |]; clear Q; unfold connection_lost; cbv zeta;
    set (st2 := match p_close _ with None => _ | Some _ => _ end);
    (assert (Q : p_reader st2 = p_reader st /\ p_T st2 = p_T st) by (unfold st2; destruct (p_close _); now split));
    clearbody st2; destruct Q as [Q1 Q2];
    (destruct (abort_futs _ _ _) as [futs []];
     [cbn [p_T p_reader set_reader r_buffer set_pongs set_lost]|cbn [p_T p_reader set_pongs]]); congruence.
  - apply some_inj in H as <-. apply Same; try reflexivity; discriminate.
  - apply some_inj in H as <-. apply Same; try reflexivity; discriminate.
  - apply some_inj in H as <-. apply Same; try reflexivity; discriminate.
  - destruct (nth_error _ _) as [[[] ?]|]; try discriminate; apply some_inj in H as <-;
      (apply Same; try reflexivity; discriminate).
  - cbn [incoming flat_map]. rewrite app_nil_r. exact (step_T_alike fed st a st' Al H).
  - apply step_K_shape in H as (? & ? & ? & ? & ? & ? & ? & ? & ->).
    apply Same; try reflexivity; discriminate.
  - apply step_C_shape in H as (? & ? & ? & ? & ? & ->).
    apply Same; try reflexivity; discriminate.
  - apply step_user_still in H as (H1 & H2 & _ & _ & H3 & _).
    apply Same; [discriminate|exact H2|now rewrite H3|exact H1].
Qed.
Lemma Alike_exec ls st : exec no_ext cfg (initial []) ls = Some st -> Alike (incoming ls) st.
Proof.
  assert (G : forall ls fed st0, Base st0 -> Alike fed st0 -> exec no_ext cfg st0 ls = Some st -> Alike (fed ++ incoming ls) st).
  { clear ls. induction ls as [|l ls IH]; cbn [exec]; intros fed st0 B W H.
    - apply some_inj in H as <-. cbn. now rewrite app_nil_r.
    - destruct (step no_ext cfg st0 l) as [st1|] eqn:S1; [|discriminate].
      change (l :: ls) with ([l] ++ ls). unfold incoming. rewrite flat_map_app, app_assoc.
      apply (IH _ st1); [eapply Base_step; eauto| |exact H]. now apply (Alike_step fed st0 l). }
  intros H. apply (G ls [] (initial [])); [apply Base_initial| |exact H]. now split.
Qed.
End Alike.
