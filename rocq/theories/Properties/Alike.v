(* The two implementations of the protocol, sans-I/O (connection.py) and asyncio (legacy/protocol.py),
   process what they receive in the same way (C90). *)
From Verif Require Import Base.Prelude Base.PreludeFacts Base.Utf8 Spec.Utf8Spec Model.Utils Model.Streams Model.Frames
  Spec.Rfc6455 Spec.FrameSpec Spec.Messages Spec.History
  Proofs.StreamsFacts Proofs.FramesFacts Proofs.ParserFacts Proofs.Utf8SpecFacts Properties.FrameCodec Proofs.ParserRun
  Properties.Connection Properties.Closing
  Model.LegacyFraming Model.LegacyProtocol Spec.Asyncio Spec.AsyncioCloseCodes Spec.AsyncioFailures Spec.Alike
  Proofs.LegacyPrims Proofs.LegacyFields Proofs.LegacyShapes Proofs.LegacyUsers Proofs.LegacyClose
  Proofs.LegacyQueue Proofs.LegacyMessages Proofs.LegacyAuthors Proofs.LegacyWire Proofs.LegacyRead Proofs.LegacyEndToEnd
  Proofs.LegacyCloseOrigin Proofs.LegacyFailures Proofs.LegacyPeer Proofs.Alike
  Properties.AsyncioState Properties.AsyncioMessages Properties.AsyncioCalls Properties.AsyncioCloseCodes Properties.AsyncioFailures.
Local Open Scope N_scope.

(* ---- C90 ---- *)

Section Both.
Context (cfg : config) (keys : nat -> Model.Connection.key4).
Hypothesis Hmax : forall max, c_max_size cfg = Some max -> (0 <= max)%Z.
Variables (ls : list label) (st : conn Empty_set).
Hypothesis HA : execution no_ext cfg [] ls st.
Variables (chunks : list bytes) (m : Model.Connection.machine Empty_set) (rs : list Model.Connection.ret).
Hypothesis Hne : chunks <> [].
Hypothesis Hsame : concat chunks = incoming ls.
Hypothesis HS : sans_io no_ext cfg keys chunks m rs.
Notation c0 := (c0 cfg keys).

Lemma stopped_frames p rest fs : incoming ls = p ++ rest -> Stopped cfg keys p fs ->
  exists later, frames_of (all_events rs m) = fs ++ later.
Proof.
  intros Hi (x & S & E). refine (Sim_reports (same_side cfg) (c_max_size cfg) keys chunks m rs p x fs Hne HS S E _).
  exists rest. now rewrite Hsame.
Qed.
Lemma fatal_frames p rest e fs : incoming ls = p ++ rest -> Fatal c0 p e fs ->
  frames_of (all_events rs m) = fs /\ first_error rs = Some e.
Proof.
  intros Hi F. refine (Fatal_reports (same_side cfg) (c_max_size cfg) keys chunks m rs p e fs Hne HS F _).
  exists rest. now rewrite Hsame.
Qed.
Lemma alike_ended : Ended cfg keys (incoming ls) (p_in st).
Proof.
  pose proof (Alike_exec cfg keys Hmax ls st HA) as Al. unfold Alike in Al.
  assert (At_ended : forall c, (exists p, incoming ls = p ++ r_buffer (p_reader st) /\ At cfg keys p c (p_in st)) ->
    Ended cfg keys (incoming ls) (p_in st)).
  { intros c (p & H1 & H2). exists p, (r_buffer (p_reader st)). split; [exact H1|]. left. exact (At_stopped cfg keys p c _ H2). }
  destruct (p_T st); try exact Al; try exact (At_ended _ Al).
  destruct Al as [Al ->]. exists [], (r_buffer (p_reader st)). split; [exact Al|]. left. exists c0. split; [apply Sim_start|reflexivity].
Qed.
End Both.

(* Whatever data is received, cut in any way, and whatever else happens to the asyncio connection, the frames
   that it processes are those that the sans-I/O connection reports, in the same order, except the last one
   when it makes the sans-I/O connection fail. *)
Theorem C90_same_frames :
  forall cfg keys ls st chunks m rs,
    (forall max, c_max_size cfg = Some max -> (0 <= max)%Z) ->
    execution no_ext cfg [] ls st ->
    chunks <> [] -> concat chunks = incoming ls -> sans_io no_ext cfg keys chunks m rs ->
    exists good bad later,
      p_in st = good ++ bad /\ frames_of (all_events rs m) = good ++ later /\
      (bad = [] \/ exists f e, bad = [f] /\ later = [] /\ first_error rs = Some e).
Proof.
  intros cfg keys ls st chunks m rs Hmax HA Hne Hs HS.
  destruct (alike_ended cfg keys Hmax ls st HA) as (p & rest & Hi & [S|(e & good & bad & Hin & F & Hb)]).
  - destruct (stopped_frames cfg keys ls chunks m rs Hne Hs HS p rest _ Hi S) as (later & Q).
    exists (p_in st), [], later. split; [symmetry; apply app_nil_r|]. split; [exact Q|now left].
  - destruct (fatal_frames cfg keys ls chunks m rs Hne Hs HS p rest e good Hi F) as [Q1 Q2].
    exists good, bad, []. split; [exact Hin|]. split; [now rewrite app_nil_r|].
    destruct Hb as [->|(f & -> & _)]; [now left|right]. exists f, e. now split.
Qed.

(* Thus recv() returns the messages that the frames reported by the sans-I/O connection carry. *)
Theorem C90_same_messages :
  forall cfg keys ls st chunks m rs,
    (forall max, c_max_size cfg = Some max -> (0 <= max)%Z) ->
    execution no_ext cfg [] ls st ->
    chunks <> [] -> concat chunks = incoming ls -> sans_io no_ext cfg keys chunks m rs ->
    exists done later current,
      message_sequence (frames_of (all_events rs m)) (done ++ later) current /\
      Forall2 carries done (map snd (p_delivered st) ++ p_messages st).
Proof.
  intros cfg keys ls st chunks m rs Hmax HA Hne Hs HS.
  destruct (C10_delivered_messages _ no_ext (c0 cfg keys) (map Model.Connection.CReceiveData chunks) m rs Model.Connection.OPEN) with (3 := HS) as (dA & cur & D1 & D2 & D3).
  { repeat split. }
  { split; intros []. }
  destruct (Recv_exec no_ext cfg [] ls st HA) as (_ & _ & _ & (done & rest & R1 & R2 & R3 & R4) & _).
  assert (R2' : Forall complete_message done) by (revert R2; apply Forall_impl; tauto).
  assert (G : forall more, data_frames (frames_of (all_events rs m)) = concat done ++ more ->
    exists done later current, message_sequence (frames_of (all_events rs m)) (done ++ later) current /\
      Forall2 carries done (map snd (p_delivered st) ++ p_messages st)).
  { intros more Q. rewrite D1 in Q. symmetry in Q. destruct (messages_prefix _ _ _ _ R2' D2 D3 Q) as (later & ->).
    exists done, later, cur. now repeat split. }
  destruct (alike_ended cfg keys Hmax ls st HA) as (p & unread & Hi & [S|(e & good & bad & Hin & F & Hb)]).
  - destruct (stopped_frames cfg keys ls chunks m rs Hne Hs HS p unread _ Hi S) as (later & Q).
    apply (G (rest ++ data_frames later)). rewrite Q. unfold data_frames in *. now rewrite filter_app, R1, app_assoc.
  - destruct (fatal_frames cfg keys ls chunks m rs Hne Hs HS p unread e good Hi F) as [Q1 Q2]. rewrite Q1 in *. clear Q1.
    rewrite Hin in R1. unfold data_frames in R1. rewrite filter_app in R1.
    destruct Hb as [->|(f & -> & Hf)].
    { apply (G rest). now rewrite <- R1, app_nil_r. }
    cbn [filter] in R1. destruct (is_data_b f) eqn:Df; [|apply (G rest); now rewrite <- R1, app_nil_r].
    destruct rest as [|f' rest _] using rev_ind.
    2:{ apply (G rest). rewrite app_assoc in R1. apply app_inj_tail in R1 as [R1 _]. exact R1. }
    rewrite app_nil_r in R1. exfalso. destruct (Hf eq_refl) as (n & (d & c & E1 & E2 & E3) & No).
    unfold data_frames in E1. rewrite E1 in R1. clear G Hf.
    destruct (messages_prefix d (c ++ [f]) done [] E2 R2' (or_introl eq_refl)) as (more & ->); [now rewrite app_nil_r, app_assoc|].
    rewrite concat_app, <- app_assoc in R1. apply app_inv_head in R1.
    apply Forall_app in R2' as [_ R2'].
    destruct more as [|m1 more]; [destruct c; discriminate|]. inversion R2' as [|? ? C1 _]; subst. cbn [concat] in R1.
    assert (m1 = c ++ [f]) as ->.
    { clear - R1 C1 E3. revert R1. generalize (concat more) as z. intros z R1.
      destruct z as [|g r _] using rev_ind; [now rewrite app_nil_r in R1|].
      rewrite app_assoc in R1. apply app_inj_tail in R1 as [R1 _]. exfalso. symmetry in R1.
      destruct n; [exact (complete_not_unfinished _ _ _ C1 R1 E3)|]. subst c. apply app_eq_nil in R1 as [-> _].
      destruct C1 as [(? & Q & _)|(m' & ? & Q & _)]; [discriminate|destruct m'; discriminate]. }
    unfold in_order in No. unfold is_data_b in Df.
    destruct n as [k|]; [|subst c].
    + destruct C1 as [(f1 & Q & _)|(m' & g & Q & _ & Cg & _)].
      * destruct E3 as (h & r & -> & _). destruct r; discriminate.
      * apply app_inj_tail in Q as [_ <-]. red in Cg. rewrite Cg in No. tauto.
    + destruct C1 as [(f1 & Q & O & _)|(m' & g & Q & (h & r & -> & _) & _)].
      * injection Q as <-. destruct O as [O|O]; rewrite O in No; tauto.
      * destruct r; discriminate.
Qed.

(* When the asyncio connection has nothing left to do with what it received, both have processed the same
   frames, and the sans-I/O connection didn't fail. *)
Lemma suspends {S A} (g : gen S A) : forall r x g' r' x', ends g -> run g r x = OSusp g' r' x' -> r_eof r = false.
Proof.
  induction g as [a|e0|p k IH|n k IH|k IH|k IH|k IH|y k IH|k IH]; intros r x g' r' x' P H; cbn [ends run] in *; try contradiction; try discriminate.
  - destruct P as [P1 P2]. destruct (n <? 0)%Z; [exact (IH _ _ _ _ _ _ (P2 _) H)|].
    destruct (lenZ (r_buffer r) <? n)%Z.
    + destruct (r_eof r) eqn:Er; [|reflexivity]. rewrite <- Er. exact (IH _ _ _ _ _ _ (P2 _) H).
    + exact (IH _ _ _ _ _ _ (P2 _) H).
  - exact (IH _ _ _ _ _ _ (P _) H).
  - exact (IH _ _ _ _ _ P H).
Qed.
Theorem C90_all_read :
  forall cfg keys ls st chunks m rs c,
    (forall max, c_max_size cfg = Some max -> (0 <= max)%Z) ->
    execution no_ext cfg [] ls st ->
    chunks <> [] -> concat chunks = incoming ls -> sans_io no_ext cfg keys chunks m rs ->
    p_T st = TRead c -> step no_ext cfg st (LT Go) = None ->
    frames_of (all_events rs m) = p_in st /\ first_error rs = None.
Proof.
  intros cfg keys ls st chunks m rs c Hmax HA Hne Hs HS HT Hstep.
  pose proof (Alike_exec cfg keys Hmax ls st HA) as Al. unfold Alike in Al. rewrite HT in Al.
  destruct Al as (p & Hi & n & x & Fo & S & R & _). cbn [step] in Hstep. unfold step_T in Hstep. rewrite HT in Hstep.
  destruct (p_Tcancel st); [discriminate|]. unfold read_frame in Hstep.
  assert (G : match run (legacy_read no_ext (negb (c_client cfg)) (read_limit cfg c)) (p_reader st) (p_exts st) with
      | OSusp _ _ _ => None
      | OFail e r exts => Some (T_raise no_ext cfg (set_reader r (set_exts exts st)) (PyExn e))
      | ODone f r exts => Some (on_frame no_ext cfg (set_in (p_in st ++ [f]) (set_reader r (set_exts exts st))) c f)
      end = None) by (destruct (p_lost st) as [[o|]|]; [discriminate|exact Hstep|exact Hstep]).
  clear Hstep. destruct (run _ _ _) as [g r ex|f r ex|e r ex] eqn:Run; try discriminate. clear G.
  pose proof (suspends _ _ _ _ _ _ (ends_read _ _ _) Run) as Er.
  destruct (p_reader st) as [buf eof]. cbn [r_eof r_buffer] in *. subst eof.
  rewrite <- (server_side cfg keys), (follows_limit cfg keys Hmax c n Fo) in Run.
  destruct (waiting_read (c0 cfg keys) p n (p_in st) x buf _ _ _ _ S R Run) as (g1 & r1 & P).
  pose proof (fed (same_side cfg) (c_max_size cfg) keys chunks m rs Hne HS) as F. cbv zeta in F.
  rewrite Hs, Hi in F. change (Model.Connection.new_conn (same_side cfg) Model.Connection.OPEN (c_max_size cfg) keys) with (c0 cfg keys) in F.
  rewrite P in F. destruct F as [F1 F2]. split; [|exact F2]. rewrite F1, (rd_events _ _ _ _ R). apply frames_of_frames.
Qed.

(** Failures *)
Lemma not_text_more fs more : not_text fs -> not_text (fs ++ more).
Proof.
  intros (before & f & later & done & rest & -> & Q). exists before, f, (later ++ more), done, rest.
  split; [now rewrite <- app_assoc|exact Q].
Qed.
Lemma failure_code_eq e : e <> EOFError -> failure_code e = Some (fail_code (PyExn e)).
Proof. destruct e; try reflexivity. contradiction. Qed.
Section Failures.
Context (cfg : config) (keys : nat -> Model.Connection.key4).
Hypothesis Hmax : forall max, c_max_size cfg = Some max -> (0 <= max)%Z.
Hypothesis Hkey : forall n, length (c_key cfg n) = 4%nat.
Definition why (ls : list label) (code : Z) : Prop :=
  (code = 1011%Z /\ (In (LK Timeout) ls \/ send_raises no_ext cfg [] ls)) \/
  In (LFail code) ls \/
  (exists p rest e fs, incoming ls = p ++ rest /\ Fatal (c0 cfg keys) p e fs /\ failure_code e = Some code) \/
  (code = 1007%Z /\ exists p rest fs, incoming ls = p ++ rest /\ Stopped cfg keys p fs /\ not_text fs).
Lemma why_more ls l code : why ls code -> why (ls ++ l) code.
Proof.
  assert (Inc : incoming (ls ++ l) = incoming ls ++ incoming l) by apply flat_map_app.
  intros [[-> [Q|Q]]|[Q|[(p & rest & e & fs & H1 & H2)|(-> & p & rest & fs & H1 & H2)]]].
  - left. split; [reflexivity|]. left. apply in_or_app. now left.
  - left. split; [reflexivity|]. right. destruct Q as (before & i & a & after & st & st' & m & e & -> & Q2 & Q3 & Q4 & Q5).
    exists before, i, a, (after ++ l), st, st', m, e. split; [now rewrite <- app_assoc|]. split; [exact Q2|]. split; [exact Q3|].
    split; [now apply calls_more|exact Q5].
  - right. left. apply in_or_app. now left.
  - right. right. left. exists p, (rest ++ incoming l), e, fs. split; [now rewrite Inc, H1, app_assoc|exact H2].
  - right. right. right. split; [reflexivity|]. exists p, (rest ++ incoming l), fs. split; [now rewrite Inc, H1, app_assoc|exact H2].
Qed.

(* a frame in order is refused because it isn't text *)
Lemma refused_text c rest f n e : context cfg c rest -> follows cfg keys c n -> in_order n f -> is_data_b f = true ->
  read_message cfg c f = RExn e ->
  (exists reason pos, e = UnicodeDecodeError reason pos) /\
  (exists first r, rest ++ [f] = first :: r /\ f_opcode first = TEXT) /\
  forall more, (final f -> more = []) -> ~ valid_utf8 (flat_map f_data (rest ++ [f]) ++ more).
Proof.
  intros Hc Fo O D R. unfold in_order, is_data_b in *. unfold final.
  destruct c as [|chunks pending max|chunks max]; cbn [context follows] in Hc, Fo; cbn [read_message] in R.
  - subst rest n. cbn [app flat_map]. rewrite app_nil_r.
    destruct (f_opcode f) eqn:Op; try discriminate; try contradiction.
    + destruct (f_fin f) eqn:Ff.
      * destruct (utf8_decode (f_data f)) as [t|e'] eqn:U; [discriminate|]. injection R as ->.
        split; [|split; [exists f, []; now split|]].
        -- unfold utf8_decode in U. destruct (u_end _); [discriminate|injection U as <-; eauto..].
        -- intros more Q. rewrite (Q eq_refl), app_nil_r. intros [t Q']. apply utf8_decode_spec in Q'. congruence.
      * unfold text_chunk in R. rewrite Ff in R.
        destruct (utf8_inc_decode [] (f_data f) false) as [p [t|e']] eqn:U; [discriminate|]. injection R as ->.
        split; [|split; [exists f, []; now split|]].
        -- exact (proj2 (inc_decode_fails [] [] [] (f_data f) false p e [] text_so_far_nil U (fun _ => eq_refl))).
        -- intros more Q. exact (proj1 (inc_decode_fails [] [] [] (f_data f) false p e more text_so_far_nil U ltac:(discriminate))).
    + destruct (f_fin f) eqn:Ff; [discriminate|]. unfold binary_chunk in R. rewrite Ff in R. discriminate.
  - destruct Hc as ((g & r & Er & Hg) & Hu & Hs & _). destruct n; [|destruct Fo; contradiction].
    destruct (f_opcode f) eqn:Op; try discriminate; try contradiction.
    unfold text_chunk in R. destruct (utf8_inc_decode pending (f_data f) (f_fin f)) as [p [t|e']] eqn:U;
        [destruct (f_fin f); discriminate|]. injection R as ->.
    split; [|split; [exists g, (r ++ [f]); rewrite Er; now split|]].
    + exact (proj2 (inc_decode_fails _ _ _ _ _ _ _ [] Hs U (fun _ => eq_refl))).
    + intros more Q. rewrite flat_map_app. cbn [flat_map]. rewrite app_nil_r, <- app_assoc.
      exact (proj1 (inc_decode_fails _ _ _ _ _ _ _ more Hs U Q)).
  - destruct n; [|destruct Fo; contradiction].
    destruct (f_opcode f) eqn:Op; try discriminate; try contradiction. unfold binary_chunk in R. destruct (f_fin f); discriminate.
Qed.

Lemma alike_expected ls (st : conn Empty_set) : execution no_ext cfg [] ls st -> expected no_ext cfg (why ls) st.
Proof.
  intros H. pose proof (Alike_exec cfg keys Hmax ls st H) as Al.
  destruct (Recv_exec no_ext cfg [] ls st H) as [Bs ((_ & Wp) & _ & (done & rest & D1 & D2 & _ & D4) & _)].
  split; [|split; [exact (CT_closed st (CT_exec no_ext cfg [] ls st H))|split; [exact Wp|]]].
  2:{ intros Q. destruct Bs as (_ & L & _). apply L in Q. unfold closed_state. now rewrite Q. }
  intros c HT. unfold Alike in Al. rewrite HT in Al, D4. cbn [tail] in D4. destruct Al as (p & Hi & n & x & Fo & S & R & Or).
  assert (Fa : forall q unread e, r_buffer (p_reader st) = q ++ unread -> (exists e' fs, Fatal (c0 cfg keys) (p ++ q) e' fs /\
      fail_code (PyExn e) = fail_code (PyExn e') /\ e' <> EOFError) \/ e = EOFError -> fine (why ls) e).
  { intros q unread e Q [(e' & fs & F & Ec & Ne)| ->]; [|now left]. right. right. right. left.
    exists (p ++ q), unread, e', fs. split; [now rewrite Hi, Q, app_assoc|]. split; [exact F|]. rewrite Ec. now apply failure_code_eq. }
  assert (Dec : forall e : exn, e = EOFError \/ e <> EOFError) by (intros []; (now left) || (right; discriminate)).
  split.
  - intros e r ex Run. destruct (read_fails cfg keys Hmax c n p x (p_in st) _ _ _ _ _ Fo S R Run) as [->|(q & unread & Hb & F)]; [now left|].
    apply (Fa q unread e Hb). destruct (Dec e) as [->|Ne]; [now right|left]. exists e, (p_in st). auto.
  - intros f r ex Run. destruct (read_arrives cfg keys Hmax c n _ _ _ _ _ Fo Run) as (w & Hb & A & Ck).
    split; [|split].
    + intros Op e Pc. apply (Fa w _ e Hb). destruct (Dec e) as [->|Ne]; [now right|left]. exists e, (p_in st).
      split; [exact (Fatal_close _ p n (p_in st) x f w e S R A Ck Op Pc)|auto].
    + intros Op st1 wr st' e Wr. exfalso. exact (pong_written_plain cfg f st1 wr st' e Hkey Op Ck Wr).
    + intros Df e Rm.
      assert (O : in_order n f \/ ~ in_order n f) by (unfold in_order; destruct (f_opcode f), n; tauto).
      destruct O as [O|O].
      * destruct (refused_text c rest f n e D4 Fo O Df Rm) as ((reason & pos & ->) & T1 & T2).
        right. right. right. right. split; [reflexivity|].
        assert (Nc : f_opcode f <> CLOSE) by (intros Q; unfold is_data_b in Df; rewrite Q in Df; discriminate).
        destruct (Sim_frame _ p n (p_in st) x f w S R A Ck Nc O) as (x1 & S1 & R1).
        exists (p ++ w), (r_buffer r), (p_in st ++ [f]). split; [now rewrite Hi, Hb, app_assoc|].
        split; [exists x1; split; [exact S1|exact (rd_events _ _ _ _ R1)]|].
        exists (p_in st), f, [], done, rest. split; [reflexivity|]. split; [|split; [|now split]].
        -- split; [exact D1|]. split; [revert D2; apply Forall_impl; tauto|exact (context_begun cfg c rest D4)].
        -- unfold is_data. unfold is_data_b in Df. destruct (f_opcode f); try discriminate; tauto.
      * destruct (Fatal_order _ p n (p_in st) x f w S R A Ck O) as (msg & F).
        assert (Q : read_message cfg c f = RExn (ProtocolError (s "unexpected opcode"))).
        { unfold in_order in O. unfold is_data_b in Df. unfold read_message.
          destruct c; cbn [follows] in Fo; [subst n|destruct Fo as [_ Fo]|destruct Fo as [_ Fo]];
            destruct (f_opcode f); try discriminate; try reflexivity; try tauto; destruct n; tauto. }
        rewrite Q in Rm. injection Rm as <-. apply (Fa w _ _ Hb). left. exists (ProtocolError msg), (p_in st).
        split; [exact F|]. split; [reflexivity|discriminate].
Qed.

Lemma failures_explained ls : forall st : conn Empty_set, execution no_ext cfg [] ls st ->
  forall y, In y (p_out st) -> o_by y = ByFailure -> f_opcode (o_frame y) = CLOSE ->
    exists code, why ls code /\ serialize_close code [] = Ok (f_data (o_frame y)).
Proof.
  induction ls as [|l ls IH] using rev_ind; intros st' H y Hy By Op.
  - apply some_inj in H as <-. destruct Hy.
  - unfold execution in H. rewrite exec_app in H. destruct (exec no_ext cfg (initial []) ls) as [st|] eqn:HB; [|discriminate].
    cbn [exec] in H. destruct (step no_ext cfg st l) as [st1|] eqn:S; [|discriminate]. apply some_inj in H as ->.
    assert (Ow : LegacyCloseOrigin.ow (called ls) (why (ls ++ [l])) st st').
    { pose proof S as S'. revert S'. apply LegacyCloseOrigin.step_ow.
      - intros i code reason c Q. exact (Started_exec no_ext cfg [] ls st HB i _ c Q).
      - intros code ->. right. left. apply in_or_app. right. now left.
      - intros ->. left. split; [reflexivity|]. left. apply in_or_app. right. now left.
      - intros i a pc c -> U Se Ra. left. split; [reflexivity|]. right.
        destruct (sending_call no_ext cfg [] ls st i pc c HB U Se) as [m Hm].
        assert (Lt : (i < length (p_users st'))%nat).
        { destruct (Authors_exec no_ext cfg [] (ls ++ [LUser i a]) st') as (Ln & _).
          { rewrite exec_app, HB. cbn [exec]. now rewrite S. }
          rewrite Ln. apply nth_error_Some. rewrite (calls_more _ _ _ _ Hm). discriminate. }
        apply nth_error_Some in Lt. destruct (nth_error (p_users st') i) as [[pc' c']|] eqn:U'; [|contradiction].
        destruct (Ra pc' c' U') as (e & -> & ->).
        exists ls, i, a, [], st, st', m, e. split; [reflexivity|]. split; [exact HB|]. split; [exact S|].
        split; [now apply calls_more|exact U'].
      - right. destruct (alike_expected ls st HB) as (E1 & E2). split; [|exact E2].
        intros c HT. destruct (E1 c HT) as [F1 F2].
        assert (Fm : forall e, fine (why ls) e -> fine (why (ls ++ [l])) e).
        { intros e [Q|Q]; [now left|right]. now apply why_more. }
        split; [intros e r ex Run; exact (Fm e (F1 e r ex Run))|]. intros f r ex Run. destruct (F2 f r ex Run) as (A1 & A2 & A3).
        split; [|split]; eauto. }
    destruct Ow as [(new & Ho & Fn) _]. rewrite Ho in Hy. apply in_app_or in Hy as [Hy|Hy].
    + destruct (IH st HB y Hy By Op) as (code & J & Sc). exists code. split; [now apply why_more|exact Sc].
    + rewrite Forall_forall in Fn. specialize (Fn y Hy Op). rewrite By in Fn. destruct Fn as (code & J & _ & Sc). now exists code.
Qed.
End Failures.

(* If the asyncio connection sends a close frame with some code because of a failure: then it was told to do
   so, or its keepalive timed out, or send() raised an exception; or else the sans-I/O connection fails, with
   the same code; or it reports the frames of a text message which isn't valid UTF-8, and the code is 1007. *)
Theorem C90_same_failures :
  forall cfg keys ls st chunks m rs y code reason,
    (forall max, c_max_size cfg = Some max -> (0 <= max)%Z) -> (forall n, length (c_key cfg n) = 4%nat) ->
    execution no_ext cfg [] ls st ->
    chunks <> [] -> concat chunks = incoming ls -> sans_io no_ext cfg keys chunks m rs ->
    In y (p_out st) -> o_by y = ByFailure -> close_frame (o_frame y) code reason ->
    reason = [] /\
    ((code = 1011%Z /\ (In (LK Timeout) ls \/ send_raises no_ext cfg [] ls)) \/
     In (LFail code) ls \/
     (exists e, first_error rs = Some e /\ failure_code e = Some code) \/
     (code = 1007%Z /\ not_text (frames_of (all_events rs m)))).
Proof.
  intros cfg keys ls st chunks m rs y code reason Hmax Hk HA Hne Hs HS Hy By Cf.
  destruct (failures_explained cfg keys Hmax Hk ls st HA y Hy By (proj1 Cf)) as (code' & J & Sc).
  apply (serialized_close _ _ _ (proj1 Cf)) in Sc. destruct (same_close _ _ _ _ _ _ Cf Sc eq_refl) as [-> ->].
  split; [reflexivity|]. destruct J as [Q|[Q|[(p & rest & e & fs & H1 & H2 & H3)|(-> & p & rest & fs & H1 & H2 & H3)]]]; auto; right; right.
  - left. exists e. split; [|exact H3]. exact (proj2 (fatal_frames cfg keys ls chunks m rs Hne Hs HS p rest e fs H1 H2)).
  - right. split; [reflexivity|]. destruct (stopped_frames cfg keys ls chunks m rs Hne Hs HS p rest fs H1 H2) as (later & ->).
    now apply not_text_more.
Qed.

(* When the asyncio connection answers a close frame, the sans-I/O connection reports that frame, or it
   fails. *)
Theorem C90_same_answers :
  forall cfg keys ls st chunks m rs y,
    (forall max, c_max_size cfg = Some max -> (0 <= max)%Z) ->
    execution no_ext cfg [] ls st ->
    chunks <> [] -> concat chunks = incoming ls -> sans_io no_ext cfg keys chunks m rs ->
    In y (p_out st) -> o_by y = ByTransfer -> f_opcode (o_frame y) = CLOSE ->
    (exists f, In f (frames_of (all_events rs m)) /\ f_opcode f = CLOSE /\ f_data f = f_data (o_frame y)) \/
    exists e, first_error rs = Some e.
Proof.
  intros cfg keys ls st chunks m rs y Hmax HA Hne Hs HS Hy By Op.
  destruct (C86_origin _ no_ext cfg [] ls st y HA Hy Op) as (code & reason & [Q|Q]).
  { destruct Q as [(_ & i & Q & _)|(_ & Q & _)]; congruence. }
  destruct Q as (Cf & _ & f & Hf & Cf').
  destruct (C90_same_frames cfg keys ls st chunks m rs Hmax HA Hne Hs HS) as (good & bad & later & H1 & H2 & H3).
  rewrite H1 in Hf. apply in_app_or in Hf as [Hf|Hf].
  - left. exists f. split; [rewrite H2; apply in_or_app; now left|]. exact (conj (proj1 (proj1 Cf')) (proj2 Cf')).
  - destruct H3 as [->|(g & e & _ & _ & H3)]; [destruct Hf|right; eauto].
Qed.

(* In that case, the code in the answer may not be the code with which the sans-I/O connection fails: when
   a close frame comes in the middle of a message, the asyncio connection answers it, with the code that it
   received, while the sans-I/O connection fails with code 1002. *)
Lemma by_receiving cfg keys chunks (P : Model.Connection.machine Empty_set -> list Model.Connection.ret -> bool) :
  (let '(m, rs) := Model.Connection.do_calls no_ext
     (Model.Connection.new_connection no_ext (if c_client cfg then Model.Connection.CLIENT else Model.Connection.SERVER)
        Model.Connection.OPEN (c_max_size cfg) keys) (map Model.Connection.CReceiveData chunks) in P m rs) = true ->
  exists m rs, sans_io no_ext cfg keys chunks m rs /\ P m rs = true.
Proof.
  unfold sans_io. destruct (Model.Connection.do_calls _ _ _) as [m rs]. eauto.
Qed.
Definition fails_with (code : Z) (rs : list Model.Connection.ret) : bool :=
  match first_error rs with Some e => match failure_code e with Some c => (c =? code)%Z | None => false end | None => false end.
Lemma fails_with_spec code rs : fails_with code rs = true -> exists e, first_error rs = Some e /\ failure_code e = Some code.
Proof.
  unfold fails_with. destruct (first_error rs) as [e|]; [|discriminate]. destruct (failure_code e) as [c|] eqn:F; [|discriminate].
  intros H. apply Z.eqb_eq in H as ->. eauto.
Qed.
Definition ex_answered (code : Z) (st : conn Empty_set) : bool :=
  existsb (fun y => match o_by y, f_opcode (o_frame y), parse_close (f_data (o_frame y)) with
                    | ByTransfer, CLOSE, Ok (c, _) => (c =? code)%Z | _, _, _ => false end) (p_out st).
Lemma ex_answered_spec code st : ex_answered code st = true ->
  exists y reason, In y (p_out st) /\ o_by y = ByTransfer /\ close_frame (o_frame y) code reason.
Proof.
  unfold ex_answered. intros H. apply existsb_exists in H as (y & Hy & H).
  destruct (o_by y) eqn:By; try discriminate. destruct (f_opcode (o_frame y)) eqn:Op; try discriminate.
  destruct (parse_close _) as [[c r]|] eqn:P; [|discriminate]. apply Z.eqb_eq in H. subst c.
  exists y, r. split; [exact Hy|]. split; [exact By|]. apply close_frame_parses. now split.
Qed.
Lemma one_chunk (x : bytes) : [x] <> [].
Proof. discriminate. Qed.
Lemma ex_limit max : c_max_size ex_config = Some max -> (0 <= max)%Z.
Proof. intros Q. injection Q as <-. lia. Qed.
Theorem C90_close_codes_refuted :
  ~ (forall cfg keys ls st chunks m rs y code reason e,
      (forall max, c_max_size cfg = Some max -> (0 <= max)%Z) -> (forall n, length (c_key cfg n) = 4%nat) ->
      execution no_ext cfg [] ls st ->
      chunks <> [] -> concat chunks = incoming ls -> sans_io no_ext cfg keys chunks m rs ->
      In y (p_out st) -> o_by y = ByTransfer -> close_frame (o_frame y) code reason ->
      first_error rs = Some e -> failure_code e = Some code).
Proof.
  intros H.
  assert (W : exists st, execution no_ext ex_config [] [LOpen; LC Go; LData (bs [1; 1; 97; 136; 2; 3; 232]); LT Go; LT Go] st /\
    ex_answered 1000 st = true) by (apply by_executing; vm_compute; reflexivity).
  destruct W as (st & HA & W). destruct (ex_answered_spec _ _ W) as (y & reason & Hy & By & Cf).
  destruct (by_receiving ex_config ex_keys [bs [1; 1; 97; 136; 2; 3; 232]] (fun _ rs => fails_with 1002 rs)) as (m & rs & HS & Fw);
    [vm_compute; reflexivity|].
  destruct (fails_with_spec _ _ Fw) as (e & F1 & F2).
  assert (Q : failure_code e = Some 1000%Z).
  { exact (H ex_config ex_keys _ st _ m rs y 1000%Z reason e ex_limit (fun _ => eq_refl) HA (one_chunk (bs [1; 1; 97; 136; 2; 3; 232])) eq_refl HS Hy By Cf F1). }
  rewrite F2 in Q. discriminate Q.
Qed.

(* The sans-I/O connection doesn't decode text: it doesn't fail when the asyncio connection does. *)
Theorem C90_invalid_text_refuted :
  ~ (forall cfg keys ls st chunks m rs y code reason,
      (forall max, c_max_size cfg = Some max -> (0 <= max)%Z) -> (forall n, length (c_key cfg n) = 4%nat) ->
      execution no_ext cfg [] ls st ->
      chunks <> [] -> concat chunks = incoming ls -> sans_io no_ext cfg keys chunks m rs ->
      In y (p_out st) -> o_by y = ByFailure -> close_frame (o_frame y) code reason -> code = 1007%Z ->
      ~ In (LFail code) ls ->
      exists e, first_error rs = Some e).
Proof.
  intros H.
  assert (W : exists st, execution no_ext ex_config [] [LOpen; LC Go; LData (bs [129; 1; 255]); LT Go] st /\
    ex_failed 1007 st = true) by (apply by_executing; vm_compute; reflexivity).
  destruct W as (st & HA & W). destruct (ex_failed_spec _ _ W) as (y & reason & Hy & By & Cf).
  destruct (by_receiving ex_config ex_keys [bs [129; 1; 255]] (fun _ rs => match first_error rs with None => true | _ => false end)) as (m & rs & HS & Fw);
    [vm_compute; reflexivity|].
  destruct (H ex_config ex_keys _ st _ m rs y 1007%Z reason ex_limit (fun _ => eq_refl) HA (one_chunk (bs [129; 1; 255])) eq_refl HS Hy By Cf eq_refl)
    as (e & Q); [clear; intros [Q|[Q|[Q|[Q|[]]]]]; discriminate Q|].
  rewrite Q in Fw. clear - Fw. discriminate Fw.
Qed.

(* A client receives a ping, "a" in two fragments, then a message of 101 bytes, which exceeds the limit: both
   implementations fail with code 1009.  The data is cut in two other places. *)
Definition ex_received : bytes :=
  bs [137; 1; 63; 1; 0; 128; 1; 97; 130; 101].
Definition ex_reads : list label :=
  [LOpen; LC Go; LData (firstn 4 ex_received); LT Go; LT DrainOk; LData (skipn 4 ex_received); LT Go; LT Go; LT Go].
Example C90_applies :
  (exists st, execution no_ext ex_config [] ex_reads st /\
    (length (p_in st) =? 3)%nat && match p_messages st with [MText t] => str_eqb t (s "a") | _ => false end && ex_failed 1009 st = true) /\
  concat [firstn 7 ex_received; skipn 7 ex_received] = incoming ex_reads /\
  (exists m rs, sans_io no_ext ex_config ex_keys [firstn 7 ex_received; skipn 7 ex_received] m rs /\
    (length (frames_of (all_events rs m)) =? 3)%nat && fails_with 1009 rs = true).
Proof.
  split; [apply by_executing; vm_compute; reflexivity|]. split; [vm_compute; reflexivity|].
  apply by_receiving. vm_compute. reflexivity.
Qed.
(* Without the last frame, both have processed everything. *)
Example C90_all_read_applies :
  exists st, execution no_ext ex_config [] [LOpen; LC Go; LData (firstn 8 ex_received); LT Go; LT DrainOk; LT Go; LT Go] st /\
  match p_T st, step no_ext ex_config st (LT Go) with TRead RFirst, None => true | _, _ => false end = true.
Proof. apply by_executing. vm_compute. reflexivity. Qed.

Print Assumptions C90_same_frames.
Print Assumptions C90_same_messages.
Print Assumptions C90_all_read.
Print Assumptions C90_same_failures.
Print Assumptions C90_same_answers.
Print Assumptions C90_close_codes_refuted.
Print Assumptions C90_invalid_text_refuted.
