(* A sans-I/O connection which receives the frames that another one sends, while it's used in any way (for C91 and C92). *)
From Verif Require Import Base.Prelude Base.PreludeFacts Model.Utils Model.Streams Model.Frames
  Model.Http11 Model.Connection Spec.Rfc6455 Spec.FrameSpec Spec.Messages Spec.History Spec.Endpoints
  Proofs.StreamsFacts Proofs.FramesFacts Proofs.ParserFacts Proofs.AtomicFacts Proofs.ConnectionFacts
  Proofs.Steps Proofs.MessagesFacts Proofs.Invariants Proofs.SendInvariants Proofs.MoreInvariants
  Proofs.Receive Proofs.Failing Properties.FrameCodec Properties.Connection Properties.Closing Proofs.ParserRun.

(** What the peer sends *)
Record Stream (fs : list frame) : Prop := {
  st_check : Forall (fun f => check f = Ok tt /\ good_close f) fs;
  st_messages : well_formed_messages fs;
  st_close : forall pre f post, fs = pre ++ f :: post -> is_close f -> post = [] /\ exists done, message_sequence pre done [] }.
(* the limit of the receiver, for frames as they are sent (fst) and as they are written (snd) *)
Definition Fits (max : option Z) (ps : list (frame * frame)) : Prop :=
  forall before f g later done current, ps = before ++ (f, g) :: later -> message_sequence (map fst before) done current ->
    fits max (message_size current + length (f_data f)) /\ fits max (message_size current + length (f_data g)).
Definition wire1 (sd : side) (f : frame) (w : bytes) : Prop :=
  exists key, layout (on_wire f key) w /\ is_masked (on_wire f key) = is_server sd.

Definition closeb (f : frame) : bool := match f_opcode f with CLOSE => true | _ => false end.
Lemma closeb_is f : closeb f = true <-> is_close f.
Proof. unfold closeb, is_close. destruct (f_opcode f); split; congruence. Qed.

Lemma do_calls_app {E} (X : ext_ops E) ks ks' : forall m,
  do_calls X m (ks ++ ks') = let '(m1, rs1) := do_calls X m ks in let '(m2, rs2) := do_calls X m1 ks' in (m2, rs1 ++ rs2).
Proof.
  induction ks as [|k ks IH]; intros m; cbn [app do_calls].
  - now destruct (do_calls X m ks').
  - destruct (do_call X m k) as [m1 r1]. rewrite IH. destruct (do_calls X m1 ks) as [m2 rs2]. now destruct (do_calls X m2 ks') as [m3 rs3].
Qed.

Section Peer.
Context {E : Type} (X : ext_ops E).
Implicit Types c : conn E.
Definition plain_ctrl (exts : list E) : Prop := forall f, is_ctrl (f_opcode f) = true -> encode_in_order X exts f = (exts, Ok f).

Lemma ctl_sent c f : c_state c = OPEN -> plain_ctrl (c_exts c) -> check f = Ok tt -> is_ctrl (f_opcode f) = true ->
  forall o, is_ctrl o = true -> exists w, send_frame X (mkframe true o (f_data f)) c = (after_send c (c_exts c) w, Ok tt).
Proof.
  intros So Pc Hc Hi o Ho.
  assert (Ld : (lenN (f_data f) <= 125)%N).
  { unfold check in Hc. destruct (f_rsv1 f || f_rsv2 f || f_rsv3 f); [discriminate|]. rewrite Hi in Hc.
    destruct (N.ltb_spec 125 (lenN (f_data f))); [discriminate|lia]. }
  assert (Ck : check (mkframe true o (f_data f)) = Ok tt).
  { unfold check, mkframe. cbn. rewrite Ho. destruct (N.ltb_spec 125 (lenN (f_data f))); [lia|reflexivity]. }
  pose proof (Pc (mkframe true o (f_data f)) Ho) as En.
  destruct (send_frame_step X (mkframe true o (f_data f)) c) as [(exts' & e' & _ & U)|(f' & exts' & w' & -> & S & _)].
  - exfalso. destruct U as [(H & _)|[(_ & _ & C)|[(_ & _ & D)|(_ & _ & _ & f2 & D & L2)]]]; [congruence|congruence| |];
      rewrite En in D; apply pair_equal_spec in D as [_ D]; [discriminate|]. apply ok_inj in D. subst f2. cbn in L2. lia.
  - destruct S as (_ & _ & D & _). rewrite En in D. apply pair_equal_spec in D as [<- _]. eauto.
Qed.
Lemma after_send_exts c exts w : c_exts (after_send c exts w) = exts.
Proof. unfold after_send. cbn [c_side set_exts]. now destruct (is_client (c_side c)). Qed.

(** The state after frames l were received; l' are still to come *)
Record Good (sd : side) (max : option Z) (pe : list event) c (l l' : list frame) : Prop := {
  gd_side : c_side c = sd; gd_max : c_max_size c = max;
  gd_events : pe ++ c_events c = map EvFrame l;
  gd_cur : exists done cur, message_sequence l done cur /\ c_cur_size c = size_of cur;
  gd_rcvd : c_close_rcvd c = existsb closeb l;
  gd_code : forall f code reason, In f l -> is_close f -> parse_close (f_data f) = Ok (code, reason) ->
    c_close_code c = Some code /\ c_close_reason c = Some reason;
  gd_open : c_state c = OPEN -> c_close_rcvd c = false /\ c_eof_sent c = false;
  gd_state : c_state c = OPEN \/ c_state c = CLOSING;
  gd_ping : c_state c = CLOSING -> c_close_rcvd c = false -> forall f, In f l' -> f_opcode f <> PING }.

Lemma limit_fits sd max pe c l l' done cur f : Good sd max pe c l l' -> message_sequence l done cur ->
  fits max (message_size cur + length (f_data f)) -> fits (next_max_size c) (length (f_data f)).
Proof.
  intros G Ms Fi. destruct (gd_cur _ _ _ _ _ _ G) as (done' & cur' & Ms' & Cu).
  destruct (message_sequence_unique _ _ _ _ _ Ms Ms') as [<- <-]. unfold next_max_size. rewrite (gd_max _ _ _ _ _ _ G), Cu.
  destruct max as [n|]; [|exact I]. cbn [fits] in Fi. destruct cur; cbn [size_of fits]; lia.
Qed.

Lemma existsb_snoc l f : existsb closeb (l ++ [f]) = existsb closeb l || closeb f.
Proof. rewrite existsb_app. cbn [existsb]. now rewrite orb_false_r. Qed.
Lemma no_close_yet l : existsb closeb l = false -> forall f, In f l -> ~ is_close f.
Proof.
  intros H f Hin Hc. apply closeb_is in Hc. assert (existsb closeb l = true) by (apply existsb_exists; eauto). congruence.
Qed.

Lemma frame_step sd max pe c l f l' : Stream (l ++ f :: l') -> plain_ctrl (c_exts c) -> Good sd max pe c l (f :: l') ->
  exists c1, process_frame X f c = (c1, Ok tt) /\ c_exts c1 = c_exts c /\ Good sd max pe (set_events c1 (c_events c1 ++ [EvFrame f])) (l ++ [f]) l'.
Proof.
  intros [Hk Hm Hc] Pl G. pose proof G as [G1 G2 G3 (done & cur & Ms & Cu) G5 G6 G7 G8 G9].
  assert (Nr : c_close_rcvd c = false).
  { rewrite G5. destruct (existsb closeb l) eqn:Q; [|reflexivity]. apply existsb_exists in Q as (g & Hg & Hcl). apply closeb_is in Hcl.
    apply in_split in Hg as (a & z & ->). destruct (Hc a g (z ++ f :: l')) as [N _]; [now rewrite <- app_assoc|exact Hcl|].
    now destruct z. }
  assert (Hkf : check f = Ok tt /\ good_close f) by (rewrite Forall_forall in Hk; apply Hk, in_or_app; right; now left).
  destruct Hkf as (Ck & Gc).
  assert (Wf : well_formed_messages (l ++ [f])) by (apply (well_formed_prefix _ l'); now rewrite <- app_assoc).
  assert (Nc : existsb closeb l = false) by now rewrite <- G5.
  assert (Ping : forall h, In h l' -> In h (f :: l')) by (intros; now right).
  assert (Old : ~ is_close f -> forall g code reason, In g (l ++ [f]) -> is_close g -> parse_close (f_data g) = Ok (code, reason) ->
     c_close_code c = Some code /\ c_close_reason c = Some reason).
  { intros Nf g code reason Hg Cg. apply in_app_iff in Hg as [Hg|[<-|[]]]; [eauto|contradiction]. }
  destruct (is_data_b f) eqn:Db.
  - pose proof (next_ok_of l done cur f Ms Db Wf) as N.
    pose proof (message_data _ _ _ f Ms N) as Md.
    assert (Nf : ~ is_close f) by (unfold is_close, is_data_b in *; destruct (f_opcode f); congruence).
    assert (Pf : process_frame X f c = (set_cur_size c (size_of (if f_fin f then [] else cur ++ [f])), Ok tt)).
    { unfold process_frame. unfold next_ok in N. rewrite Nr, Cu.
      destruct (f_opcode f) eqn:O; try (unfold is_data_b in Db; rewrite O in Db; discriminate);
      destruct cur as [|f1 cur]; try contradiction; try discriminate N; cbn [size_of]; destruct (f_fin f); try reflexivity;
      try (f_equal; f_equal; symmetry; rewrite size_of_snoc; reflexivity);
      try (f_equal; f_equal; symmetry; rewrite (size_of_snoc [] f); reflexivity). }
    eexists. split; [exact Pf|]. split; [reflexivity|]. split; cbn [set_events set_cur_size c_side c_max_size c_events c_cur_size c_close_rcvd c_close_code c_close_reason c_state c_eof_sent]; auto.
    + rewrite app_assoc, G3, map_app. reflexivity.
    + destruct (f_fin f); eauto.
    + rewrite existsb_snoc, G5. destruct (closeb f) eqn:Q; [apply closeb_is in Q; contradiction|now rewrite orb_false_r].
    + exact (Old Nf).
  - assert (Hi : is_ctrl (f_opcode f) = true) by (unfold is_data_b in Db; destruct (f_opcode f); try discriminate; reflexivity).
    pose proof (message_ctrl _ _ _ f Db Ms) as Md.
    unfold process_frame. destruct (f_opcode f) eqn:O; try discriminate Hi.
    + (* close *)
      destruct (Hc l f l' eq_refl O) as (-> & d & Md'). destruct (message_sequence_unique _ _ _ _ _ Ms Md') as [_ ->].
      destruct (Gc O) as (code & reason & Pc). rewrite Pc.
      cbn [c_cur_size set_close set_close_rcvd]. rewrite Cu. cbn [size_of c_state set_close set_close_rcvd].
      set (c2 := set_close (set_close_rcvd c true) code reason).
      assert (Code : forall g code' reason', In g (l ++ [f]) -> is_close g -> parse_close (f_data g) = Ok (code', reason') ->
         Some code = Some code' /\ Some reason = Some reason').
      { intros g code' reason' Hg Cg Pg. apply in_app_iff in Hg as [Hg|[<-|[]]]; [exfalso; exact (no_close_yet l Nc g Hg Cg)|].
        rewrite Pc in Pg. apply ok_inj, pair_equal_spec in Pg as [-> ->]. split; reflexivity. }
      assert (Rc : true = existsb closeb (l ++ [f])).
      { rewrite existsb_snoc. apply closeb_is in O. now rewrite O, orb_true_r. }
      assert (Ev : (pe ++ c_events c) ++ [EvFrame f] = map EvFrame (l ++ [f])) by (rewrite G3, map_app; reflexivity).
      destruct G8 as [So|So]; rewrite So; cbn [is_open].
      * destruct (G7 So) as (_ & Es).
        destruct (ctl_sent c2 f So Pl Ck) with (o := CLOSE) as (w' & Sf); [now rewrite O|reflexivity|].
        unfold mseq at 1. rewrite Sf. unfold start_closing, mseq, mupd, mret, send_eof.
        cbn [c_side set_state c_eof_sent]. rewrite after_send_side, after_send_eof.
        change (c_side c2) with (c_side c). change (c_eof_sent c2) with (c_eof_sent c). rewrite Es.
        destruct (after_send_attrs c2 (c_exts c2) w') as (A1 & A2 & A3 & A4 & A5).
        assert (A6 : c_close_code (after_send c2 (c_exts c2) w') = Some code /\ c_close_reason (after_send c2 (c_exts c2) w') = Some reason)
          by (unfold after_send; cbn [c_side set_exts]; destruct (is_client (c_side c2)); split; reflexivity).
        destruct A6 as (A6 & A7).
        destruct (is_server (c_side c)) eqn:Sv; (eexists; split; [reflexivity|]); (split; [exact (after_send_exts c2 (c_exts c2) w')|]);
          (split; cbn [set_events set_state set_writes set_eof_sent c_side c_max_size c_events c_cur_size c_close_rcvd c_close_code c_close_reason c_state c_eof_sent];
           [now rewrite after_send_side|now rewrite A3|rewrite after_send_events, app_assoc; exact Ev|exists done, []; rewrite A4; auto|rewrite A5; exact Rc|
            rewrite A6, A7; exact Code|discriminate|now right|intros _ _ h []]).
      * eexists. split; [reflexivity|]. split; [reflexivity|].
        unfold c2. split; cbn [set_events set_close set_close_rcvd c_side c_max_size c_events c_cur_size c_close_rcvd c_close_code c_close_reason c_state c_eof_sent]; auto.
        -- rewrite app_assoc. exact Ev.
        -- exists done, []. auto.
        -- intros Q. congruence.
    + (* ping *)
      rewrite Nr. destruct G8 as [So|So]; [|exfalso; exact (G9 So Nr f (or_introl eq_refl) O)].
      assert (Nf : ~ is_close f) by (unfold is_close; congruence).
      destruct (ctl_sent c f So Pl Ck) with (o := PONG) as (w' & ->); [now rewrite O|reflexivity|].
      destruct (after_send_attrs c (c_exts c) w') as (A1 & A2 & A3 & A4 & A5).
      assert (A6 : c_close_code (after_send c (c_exts c) w') = c_close_code c /\ c_close_reason (after_send c (c_exts c) w') = c_close_reason c)
          by (unfold after_send; cbn [c_side set_exts]; destruct (is_client (c_side c)); split; reflexivity).
      destruct A6 as (A6 & A7).
      eexists. split; [reflexivity|]. split; [apply after_send_exts|]. split; cbn [set_events c_side c_max_size c_events c_cur_size c_close_rcvd c_close_code c_close_reason c_state c_eof_sent].
      * now rewrite after_send_side.
      * now rewrite A3.
      * rewrite after_send_events, app_assoc, G3, map_app. reflexivity.
      * exists done, cur. now rewrite A4.
      * rewrite A5, existsb_snoc, G5. unfold closeb at 3. now rewrite O, orb_false_r.
      * rewrite A6, A7. exact (Old Nf).
      * rewrite A1, A5, after_send_eof. exact G7.
      * rewrite A1. now left.
      * rewrite A1, So. discriminate.
    + (* pong *)
      assert (Nf : ~ is_close f) by (unfold is_close; congruence).
      eexists. split; [reflexivity|]. split; [reflexivity|]. split; cbn [set_events c_side c_max_size c_events c_cur_size c_close_rcvd c_close_code c_close_reason c_state c_eof_sent]; auto.
      * rewrite app_assoc, G3, map_app. reflexivity.
      * exists done, cur. auto.
      * rewrite existsb_snoc, G5. unfold closeb at 3. now rewrite O, orb_false_r.
      * exact (Old Nf).
Qed.

(** The parser waits for the rest of a frame, of which it has q *)
Definition waiting (g : gen (conn E) unit) (r : reader) (q : bytes) c : Prop :=
  r_eof r = false /\ forall d e y, frozen y = frozen c ->
    run (parse_body X) (later (stream q) d e) y = run g (later r d e) y.

Lemma waiting_suspended q c g r c1 : run (parse_body X) (stream q) c = OSusp g r c1 -> c1 = c /\ waiting g r q c.
Proof.
  intros R. destruct (run_atomic frozen (parse_body X) (stream q) c g r c1) as (-> & Er & _ & H).
  - apply reads_first_parse_body.
  - apply live_live_at, live_parse_body.
  - reflexivity.
  - exact R.
  - split; [reflexivity|]. split; [exact Er|exact H].
Qed.

Lemma waiting_parse g r q c d e y : waiting g r q c -> frozen y = frozen c ->
  parse_all X g (later r d e) y = parse_all X (parse_body X) (later (stream q) d e) y.
Proof.
  intros (_ & W) F. specialize (W d e y F). unfold parse_all at 2.
  destruct (run_parser_total X (parser_fuel (later (stream q) d e)) (parse_body X) (later (stream q) d e) y (le_n _)) as (o & Ho & _).
  rewrite Ho. unfold parser_fuel in Ho. apply (parse_all_intro X (length (r_buffer (later (stream q) d e)) + 2)).
  rewrite Nat.add_comm in Ho |- *. cbn [plus run_parser] in Ho |- *. now rewrite <- W.
Qed.

Definition rest_of_body c : gen (conn E) unit :=
  let* f := parse_frame X c_exts set_exts (is_server (c_side c)) (next_max_size c) in
  let* _ := gmeth (process_frame X f) in
  gmeth (mupd (fun c => set_events c (c_events c ++ [EvFrame f]))).
Lemma run_body b c : b <> [] -> run (parse_body X) (stream b) c = run (rest_of_body c) (stream b) c.
Proof. intros N. unfold parse_body. rewrite run_gbind. cbn [run at_eof stream r_buffer]. destruct b; [contradiction|reflexivity]. Qed.
Lemma run_rest b c g r f exts c1 :
  run (parse_wire (is_server (c_side c)) (next_max_size c)) (stream b) c = ODone g r c ->
  decode_reversed X (c_exts c) g (next_max_size c) = (exts, Ok f) -> check f = Ok tt ->
  process_frame X f (set_exts c exts) = (c1, Ok tt) ->
  run (rest_of_body c) (stream b) c = ODone tt r (set_events c1 (c_events c1 ++ [EvFrame f])).
Proof.
  intros W D Ck P. unfold rest_of_body, parse_frame. rewrite run_gbind, run_gbind, W. cbn [obind run get_state gbind].
  rewrite D. rewrite run_gbind. cbn [put_state run obind glift gbind]. rewrite Ck. cbn [glift gbind run obind].
  rewrite run_gbind, run_gmeth_reader, P. cbn [obind]. now rewrite run_gmeth_reader.
Qed.

Lemma wire_run sd f w r c : wire1 sd f w -> c_side c = sd -> fits (next_max_size c) (length (f_data f)) ->
  run (parse_wire (is_server (c_side c)) (next_max_size c)) (stream (w ++ r)) c = ODone f (stream r) c.
Proof.
  intros (key & L & M) Sd F. rewrite Sd.
  destruct (parse_wire_layout (is_server sd) (next_max_size c) _ w r (stream (w ++ r)) c L eq_refl) as (res & V & R).
  assert (Kn : kind_of_opcode (w_opcode (on_wire f key)) <> None) by (apply kind_opcode; cbn; eauto).
  inversion V as [K'|K' M'|mm K' M' EM F'|f0 key0 M' F' O]; subst res.
  - contradiction.
  - exfalso. congruence.
  - exfalso. apply F'. exact F.
  - assert (f0 = f) as ->.
    { unfold on_wire in O. injection O as O1 O2 O3 O4 O5 O6 O7. destruct f as [fi o d a1 a2 a3], f0 as [fi' o' d' b1 b2 b3].
      cbn in *. subst. f_equal. clear -O5. destruct o, o'; try reflexivity; discriminate. }
    exact R.
Qed.

Lemma partial_frame sd f w q q' c : wire1 sd f w -> c_side c = sd -> fits (next_max_size c) (length (f_data f)) ->
  w = q ++ q' -> q' <> [] -> exists g r, run (parse_body X) (stream q) c = OSusp g r c.
Proof.
  intros W Sd F Hw N.
  assert (S : exists g r c1, run (parse_body X) (stream q) c = OSusp g r c1).
  { destruct q as [|b0 q]; [cbn; eauto|]. rewrite run_body by discriminate.
    pose proof (wire_run sd f w [] c W Sd F) as R. rewrite app_nil_r, Hw in R.
    pose proof (run_feed (parse_wire (is_server (c_side c)) (next_max_size c)) (stream (b0 :: q)) c q'
                  (live_live_at _ _ (live_parse_wire _ _)) eq_refl) as H.
    change (grow (stream (b0 :: q)) q') with (stream ((b0 :: q) ++ q')) in H. rewrite R in H.
    unfold rest_of_body, parse_frame. rewrite run_gbind, run_gbind.
    destruct (run (parse_wire _ _) (stream (b0 :: q)) c) as [g r c1|f1 r1 c1|e r1 c1].
    - cbn [obind]. eauto.
    - exfalso. destruct H as [H _]. apply (f_equal (fun o => match o with ODone _ r _ => r_buffer r | _ => [] end)) in H.
      cbn [stream r_buffer grow] in H. symmetry in H. apply app_eq_nil in H as [_ H]. contradiction.
    - exfalso. destruct H as [H _]. discriminate. }
  destruct S as (g & r & c1 & S). destruct (waiting_suspended q c g r c1 S) as [-> _]. eauto.
Qed.

(* extensions after frames were encoded *)
Definition encoded (exts exts' : list E) : Prop := exts' = exts \/ exists f r, encode_in_order X exts f = (exts', r).
(** Calls other than receive_data() and receive_eof() *)
Lemma sends_keep f (c c' : conn E) r : send_frame X f c = (c', r) ->
  c_side c' = c_side c /\ c_max_size c' = c_max_size c /\ c_events c' = c_events c /\ c_cur_size c' = c_cur_size c /\
  c_close_rcvd c' = c_close_rcvd c /\ c_close_code c' = c_close_code c /\ c_close_reason c' = c_close_reason c /\
  c_state c' = c_state c /\ c_eof_sent c' = c_eof_sent c /\ encoded (c_exts c) (c_exts c').
Proof.
  intros H. destruct (send_frame_step X f c) as [(exts & e & Q & U)|(f' & exts & w & Q & U & _)]; rewrite Q in H;
    apply pair_equal_spec in H as [<- _].
  - assert (En : encoded (c_exts c) exts).
    { destruct U as [(_ & -> & _)|[(_ & -> & _)|[(_ & _ & D)|(_ & _ & _ & f2 & D & _)]]]; [now left|now left|right; eauto|right; eauto]. }
    repeat split. exact En.
  - assert (En : encoded (c_exts c) exts) by (destruct U as (_ & _ & D & _); right; eauto).
    unfold after_send. cbn [c_side set_exts]. destruct (is_client (c_side c)); repeat split; exact En.
Qed.
Definition same_but_sent (c c' : conn E) : Prop :=
  c_side c' = c_side c /\ c_max_size c' = c_max_size c /\ c_events c' = c_events c /\ c_cur_size c' = c_cur_size c /\
  c_close_rcvd c' = c_close_rcvd c /\ c_close_code c' = c_close_code c /\ c_close_reason c' = c_close_reason c /\
  c_state c' = c_state c /\ c_eof_sent c' = c_eof_sent c /\ encoded (c_exts c) (c_exts c').
Lemma same_refl c : same_but_sent c c.
Proof. repeat split. now left. Qed.
Lemma Good_same sd max pe c c' l l' : same_but_sent c c' -> Good sd max pe c l l' -> Good sd max pe c' l l'.
Proof.
  intros (K1 & K2 & K3 & K4 & K5 & K6 & K7 & K8 & K9 & _) [G1 G2 G3 G4 G5 G6 G7 G8 G9].
  split; rewrite ?K1, ?K2, ?K3, ?K4, ?K5, ?K6, ?K7, ?K8, ?K9; assumption.
Qed.
Lemma frozen_same c c' : same_but_sent c c' -> frozen c' = frozen c.
Proof. intros (K1 & K2 & K3 & K4 & _). unfold frozen. now rewrite K1, K2, K4. Qed.
Lemma data_keeps k op data fin f (c c' : conn E) r : data_call k = Some (op, data, fin) -> meth_of X k = Some f ->
  f c = (c', r) -> same_but_sent c c'.
Proof.
  intros D M. destruct k; try discriminate D; cbn in M; apply some_inj in M; subst f;
    unfold send_continuation, send_text, send_binary; destruct (c_expect_cont c); cbn [negb];
    try (unfold mraise; intros H; apply pair_equal_spec in H as [<- _]; apply same_refl);
    intros H; apply sends_keep in H; exact H.
Qed.

Lemma close_step code reason (c c' : conn E) r : send_close X code reason c = (c', r) ->
  (c_state c = OPEN -> c_eof_sent c = false) ->
  same_but_sent c c' \/
  r = Ok tt /\ c_state c = OPEN /\ c_state c' = CLOSING /\
  c_side c' = c_side c /\ c_max_size c' = c_max_size c /\ c_events c' = c_events c /\ c_cur_size c' = c_cur_size c /\
  c_close_rcvd c' = c_close_rcvd c /\ c_close_code c' = c_close_code c /\ c_close_reason c' = c_close_reason c /\ encoded (c_exts c) (c_exts c').
Proof.
  intros H Eo. unfold send_close in H.
  destruct (c_expect_cont c); [unfold mraise in H; apply pair_equal_spec in H as [<- _]; left; apply same_refl|].
  assert (G : forall data, mseq (send_frame X (mkframe true CLOSE data)) start_closing c = (c', r) ->
    same_but_sent c c' \/
    r = Ok tt /\ c_state c = OPEN /\ c_state c' = CLOSING /\
    c_side c' = c_side c /\ c_max_size c' = c_max_size c /\ c_events c' = c_events c /\ c_cur_size c' = c_cur_size c /\
    c_close_rcvd c' = c_close_rcvd c /\ c_close_code c' = c_close_code c /\ c_close_reason c' = c_close_reason c /\ encoded (c_exts c) (c_exts c')).
  { intros data Q. unfold mseq at 1 in Q. destruct (send_frame X (mkframe true CLOSE data) c) as [c1 r1] eqn:S.
    pose proof (sends_keep _ _ _ _ S) as Kp.
    destruct r1 as [[]|e]; [|apply pair_equal_spec in Q as [<- _]; left; exact Kp].
    assert (So : c_state c = OPEN).
    { unfold send_frame in S. destruct (c_state c); try reflexivity; apply pair_equal_spec in S as [_ S]; discriminate. }
    destruct Kp as (K1 & K2 & K3 & K4 & K5 & K6 & K7 & K8 & K9 & K10).
    unfold start_closing, mseq, mupd, mret, send_eof in Q. cbn [c_side set_state c_eof_sent] in Q. rewrite K9, (Eo So) in Q.
    right. destruct (is_server (c_side c1)); apply pair_equal_spec in Q as [<- <-];
      cbn [set_state set_eof_sent set_writes c_side c_max_size c_events c_cur_size c_close_rcvd c_close_code c_close_reason c_state c_exts];
      repeat split; assumption. }
  destruct code as [x|].
  - destruct (serialize_close x reason) as [data|e]; [exact (G data H)|]. unfold mraise in H. apply pair_equal_spec in H as [<- _]. left. apply same_refl.
  - destruct reason; [exact (G [] H)|]. unfold mraise in H. apply pair_equal_spec in H as [<- _]. left. apply same_refl.
Qed.

(** Frames are received: ps are the frames sent by the peer, and what they are on the wire; Lk l says that the
    extensions have decoded l *)
Section Run.
Variables (c0 : conn E) (all : list call) (ps : list (frame * frame)) (Lk : list (frame * frame) -> list E -> Prop).
Let sd := c_side c0.
Let max := c_max_size c0.
Hypothesis St : Stream (map fst ps).
Hypothesis Fi : Fits max ps.
Hypothesis Np : no_ping_while_closing X c0 all (map fst ps).
Hypothesis Ne : ~ In CReceiveEof all.
Hypothesis Hdec : forall l f g l' exts n, ps = l ++ (f, g) :: l' -> Lk l exts ->
  fits n (length (f_data f)) -> exists exts', decode_reversed X exts g n = (exts', Ok f) /\ Lk (l ++ [(f, g)]) exts'.
Hypothesis Henc : forall l exts f exts' r, Lk l exts -> encode_in_order X exts f = (exts', r) -> Lk l exts'.
Hypothesis Hctl : forall l exts, Lk l exts -> plain_ctrl exts.
Notation names := (map fst).

Lemma feed pe fs : forall ws l c x rest, ps = l ++ fs -> Good sd max pe c (names l) (names fs) -> Lk l (c_exts c) ->
  Forall2 (wire1 sd) (map snd fs) ws -> x ++ rest = concat ws ->
  exists l1 l2 ws2 c1 g r q, fs = l1 ++ l2 /\ Forall2 (wire1 sd) (map snd l2) ws2 /\ q ++ rest = concat ws2 /\
    (rest = [] -> l2 = [] /\ q = []) /\ parse_all X (parse_body X) (stream x) c = Some (OSusp g r c1) /\
    Good sd max pe c1 (names (l ++ l1)) (names l2) /\ Lk (l ++ l1) (c_exts c1) /\ waiting g r q c1.
Proof.
  induction fs as [|[f h] fs IH]; intros ws l c x rest Ps G Lc Wi Hx.
  - inversion Wi; subst ws. cbn [concat] in Hx. apply app_eq_nil in Hx as [-> ->].
    assert (R : run (parse_body X) (stream []) c = OSusp (parse_body X) (stream []) c) by reflexivity.
    exists [], [], [], c, (parse_body X), (stream []), [].  
    split; [reflexivity|]. split; [constructor|]. split; [reflexivity|]. split; [now split|]. split; [now apply (parse_all_intro X 1)|].
    rewrite app_nil_r. split; [exact G|]. split; [exact Lc|]. exact (proj2 (waiting_suspended _ _ _ _ _ R)).
  - cbn [map snd] in Wi. inversion Wi as [|? w ? ws' W1 Wr Q1 Q2]. subst ws. cbn [concat] in Hx.
    destruct (gd_cur _ _ _ _ _ _ G) as (done & cur & Ms & _).
    destruct (Fi l f h fs done cur Ps Ms) as (Ff & Fh).
    pose proof (limit_fits _ _ _ _ _ _ done cur f G Ms Ff) as Lf. pose proof (limit_fits _ _ _ _ _ _ done cur h G Ms Fh) as Lh.
    destruct (Nat.lt_ge_cases (length x) (length w)) as [Lt|Ge].
    + assert (Hw : exists q', w = x ++ q' /\ q' <> []).
      { exists (skipn (length x) w). pose proof (f_equal (firstn (length x)) Hx) as Q. rewrite firstn_app, firstn_all, Nat.sub_diag in Q. cbn [firstn] in Q.
        rewrite app_nil_r, firstn_app in Q. replace (length x - length w)%nat with 0%nat in Q by lia. cbn [firstn] in Q. rewrite app_nil_r in Q.
        split; [rewrite Q at 1; symmetry; apply firstn_skipn|]. intros Z. apply (f_equal (@length _)) in Z. rewrite skipn_length in Z. cbn in Z. lia. }
      destruct Hw as (q' & Hw & Nq). destruct (partial_frame sd h w x q' c W1 (gd_side _ _ _ _ _ _ G) Lh Hw Nq) as (g & r & R).
      exists [], ((f, h) :: fs), (w :: ws'), c, g, r, x. rewrite app_nil_r.
      split; [reflexivity|]. split; [exact Wi|]. split; [exact Hx|]. split.
      { intros ->. exfalso. rewrite app_nil_r in Hx. rewrite Hx, app_length in Lt. lia. }
      split; [apply (parse_all_intro X 1); cbn [run_parser]; now rewrite R|]. split; [exact G|]. split; [exact Lc|].
      exact (proj2 (waiting_suspended _ _ _ _ _ R)).
    + assert (Hw : exists x', x = w ++ x').
      { exists (skipn (length w) x). pose proof (f_equal (firstn (length w)) Hx) as Q. symmetry in Q. rewrite firstn_app, firstn_all, Nat.sub_diag in Q. cbn [firstn] in Q.
        rewrite app_nil_r, firstn_app in Q. replace (length w - length x)%nat with 0%nat in Q by lia. cbn [firstn] in Q. rewrite app_nil_r in Q.
        rewrite Q at 1. symmetry. apply firstn_skipn. }
      destruct Hw as (x' & ->). rewrite <- app_assoc in Hx. apply app_inv_head in Hx.
      destruct (Hdec l f h fs (c_exts c) (next_max_size c) Ps Lc Lf) as (exts & De & L1).
      assert (Gx : Good sd max pe (set_exts c exts) (names l) (f :: names fs)) by (destruct G; split; assumption).
      assert (St' : Stream (names l ++ f :: names fs)) by (rewrite Ps, map_app in St; exact St).
      destruct (frame_step sd max pe (set_exts c exts) (names l) f (names fs) St' (Hctl _ _ L1) Gx) as (c1 & P & Ex & G1).
      assert (Ps1 : ps = (l ++ [(f, h)]) ++ fs) by now rewrite <- app_assoc.
      destruct (IH ws' (l ++ [(f, h)]) (set_events c1 (c_events c1 ++ [EvFrame f])) x' rest Ps1) as (l1 & l2 & ws2 & c2 & g & r & q & E1 & E2 & E3 & E4 & E5 & E6 & E7 & E8).
      { rewrite map_app. exact G1. }
      { cbn [c_exts set_events]. rewrite Ex. exact L1. }
      { exact Wr. }
      { exact Hx. }
      exists ((f, h) :: l1), l2, ws2, c2, g, r, q. rewrite <- app_assoc in E6, E7.
      split; [now rewrite E1|]. split; [exact E2|]. split; [exact E3|]. split; [exact E4|]. split; [|split; [exact E6|split; [exact E7|exact E8]]].
      unfold parse_all in E5. apply (parse_all_intro X (Datatypes.S (parser_fuel (stream x')))). cbn [run_parser].
      assert (Nw : w ++ x' <> []).
      { intros Z. apply app_eq_nil in Z as [Z _]. destruct W1 as (key & L & _). exact (wire_nonempty _ _ _ L Z). }
      assert (Ck : check f = Ok tt). { pose proof (st_check _ St') as Hk. rewrite Forall_forall in Hk. apply (Hk f). apply in_or_app. right. now left. }
      rewrite run_body by exact Nw.
      rewrite (run_rest _ _ h (stream x') f exts c1 (wire_run sd h w x' c W1 (gd_side _ _ _ _ _ _ G) Lh) De Ck P). exact E5.
Qed.

(** Any calls *)
Lemma same_exts c c' : same_but_sent c c' -> encoded (c_exts c) (c_exts c').
Proof. intros S. apply S. Qed.
Lemma Lk_encoded l exts exts' : Lk l exts -> encoded exts exts' -> Lk l exts'.
Proof. intros H [->|(f & r & En)]; [exact H|exact (Henc _ _ _ _ _ H En)]. Qed.
Record At (pe : list event) (m : machine E) (l l' : list (frame * frame)) (q : bytes) : Prop := {
  at_good : Good sd max pe (m_conn m) (map fst l) (map fst l');
  at_exts : Lk l (c_exts (m_conn m));
  at_exc : m_exc m = None;
  at_parser : exists g, m_parser m = PRun g /\ waiting g (m_reader m) q (m_conn m) }.

Lemma waiting_frozen g r q c c' : frozen c' = frozen c -> waiting g r q c -> waiting g r q c'.
Proof. intros F (Ef & W). split; [exact Ef|]. intros d e y Hy. apply W. congruence. Qed.

Lemma At_same pe m l l' q c' : At pe m l l' q -> same_but_sent (m_conn m) c' ->
  At pe (Machine c' (m_reader m) (m_parser m) (m_exc m)) l l' q.
Proof.
  intros [G Lc Ex (g & P & W)] S. split; cbn [m_conn m_exc m_parser m_reader]; [exact (Good_same _ _ _ _ _ _ _ S G)|exact (Lk_encoded _ _ _ Lc (same_exts _ _ S))|exact Ex|].
  exists g. split; [exact P|]. exact (waiting_frozen _ _ _ _ _ (frozen_same _ _ S) W).
Qed.


Lemma any_calls ks : forall past m rs l l' ws q rest m' rs',
  all = past ++ ks -> do_calls X (start X (parse_body X) c0) past = (m, rs) ->
  At (flat_map delivered_by rs) m l l' q -> ps = l ++ l' -> Forall2 (wire1 sd) (map snd l') ws ->
  q ++ received_data ks ++ rest = concat ws ->
  (rest = [] -> received_data ks = [] -> l' = [] /\ q = []) ->
  do_calls X m ks = (m', rs') ->
  no_failure ks rs' /\ exists l1 l2 q', l' = l1 ++ l2 /\ At (flat_map delivered_by (rs ++ rs')) m' (l ++ l1) l2 q' /\
    (rest = [] -> l2 = [] /\ q' = []).
Proof.
  induction ks as [|k ks IH]; intros past m rs l l' ws q rest m' rs' Ha Hp A Hfs Wi Hq Hr D.
  - cbn [do_calls] in D. apply pair_equal_spec in D as [<- <-]. split; [constructor|].
    exists [], l', q. rewrite !app_nil_r. split; [reflexivity|]. split; [exact A|]. intros Q. exact (Hr Q eq_refl).
  - cbn [do_calls] in D. destruct (do_call X m k) as [m1 r1] eqn:D1. destruct (do_calls X m1 ks) as [m2 rs2] eqn:D2.
    apply pair_equal_spec in D as [<- <-].
    assert (Hp1 : do_calls X (start X (parse_body X) c0) (past ++ [k]) = (m1, rs ++ [r1])).
    { rewrite do_calls_app, Hp. cbn [do_calls]. rewrite D1. reflexivity. }
    assert (Ha1 : all = (past ++ [k]) ++ ks) by now rewrite <- app_assoc.
    (* it's enough to establish the invariant after the call *)
    assert (Next : forall la lb wsb q1,
      (forall d, k = CReceiveData d -> r1 = RNone) -> l' = la ++ lb -> At (flat_map delivered_by (rs ++ [r1])) m1 (l ++ la) lb q1 ->
      Forall2 (wire1 sd) (map snd lb) wsb -> q1 ++ received_data ks ++ rest = concat wsb ->
      (rest = [] -> received_data ks = [] -> lb = [] /\ q1 = []) ->
      no_failure (k :: ks) (r1 :: rs2) /\ exists l1 l2 q', l' = l1 ++ l2 /\
        At (flat_map delivered_by (rs ++ r1 :: rs2)) m2 (l ++ l1) l2 q' /\ (rest = [] -> l2 = [] /\ q' = [])).
    { intros la lb wsb q1 Hk Hl A1 W1 Hq1 Hr1.
      destruct (IH (past ++ [k]) m1 (rs ++ [r1]) (l ++ la) lb wsb q1 rest m2 rs2 Ha1 Hp1 A1) as (F & l1 & l2 & q' & E1 & E2 & E3); auto.
      { now rewrite Hfs, Hl, app_assoc. }
      split; [constructor; [exact Hk|exact F]|]. exists (la ++ l1), l2, q'. rewrite <- app_assoc in E2. cbn [app] in E2.
      split; [now rewrite Hl, E1, app_assoc|]. split; [now rewrite app_assoc|exact E3]. }
    (* calls that receive nothing *)
    assert (Quiet : (forall d, k <> CReceiveData d) -> At (flat_map delivered_by (rs ++ [r1])) m1 l l' q ->
      no_failure (k :: ks) (r1 :: rs2) /\ exists l1 l2 q', l' = l1 ++ l2 /\
        At (flat_map delivered_by (rs ++ r1 :: rs2)) m2 (l ++ l1) l2 q' /\ (rest = [] -> l2 = [] /\ q' = [])).
    { intros Nk A1. assert (Rk : received_data (k :: ks) = received_data ks) by (destruct k; try reflexivity; exfalso; exact (Nk data eq_refl)).
      rewrite Rk in Hq, Hr. apply (Next [] l' ws q); auto; [|now rewrite app_nil_r].
      intros d Q. exfalso. exact (Nk d Q). }
    assert (Nd : forall r, (match r with REvents _ => False | _ => True end) -> flat_map delivered_by (rs ++ [r]) = flat_map delivered_by rs).
    { intros r Hd. rewrite flat_map_app. destruct r; try contradiction; cbn; now rewrite app_nil_r. }
    assert (On : forall f, do_call X m k = on_conn m f -> (forall d, k <> CReceiveData d) ->
      (forall c' r, f (m_conn m) = (c', r) -> same_but_sent (m_conn m) c') ->
      no_failure (k :: ks) (r1 :: rs2) /\ exists l1 l2 q', l' = l1 ++ l2 /\
        At (flat_map delivered_by (rs ++ r1 :: rs2)) m2 (l ++ l1) l2 q' /\ (rest = [] -> l2 = [] /\ q' = [])).
    { intros f Hf Nk Kp. apply (Quiet Nk). rewrite Hf in D1. unfold on_conn in D1. destruct (f (m_conn m)) as [c' r] eqn:Fc.
      apply pair_equal_spec in D1 as [<- <-]. rewrite Nd by (destruct r; exact Logic.I). exact (At_same _ _ _ _ _ _ A (Kp c' r eq_refl)). }
    destruct k as [d| |d fin|d fin|d fin|code reason|d|d| |].
    + (* receive_data *)
      cbn [do_call] in D1. rewrite receive_data_eq in D1. destruct A as [G Lc Ex (g & P & W)]. pose proof W as (Er & _). rewrite Er in D1.
      change (received_data (CReceiveData d :: ks)) with (d ++ received_data ks) in Hq, Hr.
      destruct (feed (flat_map delivered_by rs) l' ws l (m_conn m) (q ++ d) (received_data ks ++ rest))
        as (la & lb & wsb & c1 & g1 & rd1 & q1 & E1 & E2 & E3 & E4 & E5 & E6 & E8 & E7).
      { exact Hfs. } { exact G. } { exact Lc. } { exact Wi. } { rewrite <- app_assoc. rewrite <- app_assoc in Hq. exact Hq. }
      pose proof (waiting_parse g (m_reader m) q (m_conn m) d false (m_conn m) W eq_refl) as Wp.
      change (later (stream q) d false) with (stream (q ++ d)) in Wp. rewrite E5 in Wp.
      rewrite step_parser_eq in D1. unfold grow_m in D1. cbn [m_parser m_reader m_conn m_exc] in D1. rewrite P in D1.
      replace (grow (m_reader m) d) with (later (m_reader m) d false) in D1 by (unfold grow, later; now rewrite Er).
      rewrite Wp in D1. cbn [ret_of] in D1. apply pair_equal_spec in D1 as [<- <-].
      apply (Next la lb wsb q1); auto.
      * rewrite Nd by exact Logic.I. split; cbn [m_conn m_exc m_parser m_reader]; [exact E6|exact E8|exact Ex|]. exists g1. split; [reflexivity|exact E7].
      * intros -> Q. rewrite Q in E4. exact (E4 eq_refl).
    + exfalso. apply Ne. rewrite Ha. apply in_or_app. right. now left.
    + apply (On (send_continuation X d fin) eq_refl); [discriminate|]. intros c' r. exact (data_keeps (CSendContinuation d fin) _ _ _ _ _ _ _ eq_refl eq_refl).
    + apply (On (send_text X d fin) eq_refl); [discriminate|]. intros c' r. exact (data_keeps (CSendText d fin) _ _ _ _ _ _ _ eq_refl eq_refl).
    + apply (On (send_binary X d fin) eq_refl); [discriminate|]. intros c' r. exact (data_keeps (CSendBinary d fin) _ _ _ _ _ _ _ eq_refl eq_refl).
    + (* send_close *)
      pose proof D1 as Dc. cbn [do_call] in D1. unfold on_conn in D1. destruct (send_close X code reason (m_conn m)) as [c' r] eqn:Sc.
      apply pair_equal_spec in D1 as [<- <-]. apply Quiet; [discriminate|]. rewrite Nd by (destruct r; exact Logic.I).
      destruct (close_step code reason (m_conn m) c' r Sc) as [S|(-> & So & Sc' & K1 & K2 & K3 & K4 & K5 & K6 & K7 & K8)].
      { intros So. exact (proj2 (gd_open _ _ _ _ _ _ (at_good _ _ _ _ _ A) So)). }
      { exact (At_same _ _ _ _ _ _ A S). }
      destruct A as [G Lc Ex (g & P & W)]. split; cbn [m_conn m_exc m_parser m_reader]; [|exact (Lk_encoded _ _ _ Lc K8)|exact Ex|].
      * destruct G as [G1 G2 G3 G4 G5 G6 G7 G8 G9].
        split; rewrite ?K1, ?K2, ?K3, ?K4, ?K5, ?K6, ?K7; auto.
        -- intros Q. congruence.
        -- intros _ _ f Hf. cbn [ret_of] in Dc. apply (Np past code reason ks m rs _ (names l') f Ha Hp Dc); [|exact Hf].
           unfold all_events. rewrite G3, frames_of_frames, Hfs. apply map_app.
      * exists g. split; [exact P|]. apply (waiting_frozen _ _ _ (m_conn m)); [unfold frozen; now rewrite K1, K2, K4|exact W].
    + apply (On (send_ping X d) eq_refl); [discriminate|]. intros c' r. exact (sends_keep _ _ _ _).
    + apply (On (send_pong X d) eq_refl); [discriminate|]. intros c' r. exact (sends_keep _ _ _ _).
    + (* events_received *)
      cbn [do_call events_received] in D1. apply pair_equal_spec in D1 as [<- <-]. apply Quiet; [discriminate|].
      rewrite flat_map_app. cbn [flat_map delivered_by]. rewrite app_nil_r.
      destruct A as [[G1 G2 G3 G4 G5 G6 G7 G8 G9] Lc Ex (g & P & W)]. split; cbn [m_conn m_exc m_parser m_reader]; [|exact Lc|exact Ex|exists g; split; [exact P|exact W]].
      split; cbn [set_events c_side c_max_size c_events c_cur_size c_close_rcvd c_close_code c_close_reason c_state c_eof_sent]; auto.
      now rewrite app_nil_r.
    + (* data_to_send *)
      cbn [do_call data_to_send] in D1. apply pair_equal_spec in D1 as [<- <-]. apply Quiet; [discriminate|]. rewrite Nd by exact Logic.I.
      apply (At_same _ _ _ _ _ (set_writes (m_conn m) []) A). repeat split. now left.
Qed.

Lemma started : fresh OPEN c0 -> Lk [] (c_exts c0) -> At [] (start X (parse_body X) c0) [] ps [].
Proof.
  intros (So & Cu & _ & Cr & Cc & Es & Ev & _) L0. rewrite start_parse_body. split; cbn [m_conn m_exc m_parser m_reader]; [|exact L0|reflexivity|].
  - split; auto.
    + exists [], []. split; [apply message_sequence_nil|exact Cu].
    + intros f code reason [].
    + intros Q. congruence.
  - exists (parse_body X). split; [reflexivity|]. split; [reflexivity|]. intros d e y _. reflexivity.
Qed.

(* the end of the stream, when everything was received *)
Lemma then_eof pe m l : At pe m l [] [] -> c_close_rcvd (m_conn m) = true ->
  exists m', do_call X m CReceiveEof = (m', RNone) /\ c_eof_sent (m_conn m') = true /\
    c_events (m_conn m') = c_events (m_conn m) /\ c_close_code (m_conn m') = c_close_code (m_conn m) /\
    c_close_reason (m_conn m') = c_close_reason (m_conn m).
Proof.
  intros [G Lc Ex (g & P & W)] Cr. pose proof W as (Er & _). cbn [do_call]. unfold receive_eof, feed_eof. rewrite Er.
  pose proof (waiting_parse g (m_reader m) [] (m_conn m) [] true (m_conn m) W eq_refl) as Wp.
  unfold later in Wp at 1. rewrite app_nil_r in Wp.
  assert (B : parse_all X (parse_body X) (later (stream []) [] true) (m_conn m) =
    Some (OSusp (GRaise AssertionError) (later (stream []) [] true) (if c_eof_sent (m_conn m) then m_conn m else fst (send_eof (m_conn m))))).
  { apply (parse_all_intro X 1). cbn [run_parser]. unfold parse_body. rewrite run_gbind. cbn [at_eof run r_buffer later stream app obind r_eof].
    cbn [gbind get_state run]. rewrite Cr. destruct (c_eof_sent (m_conn m)) eqn:Es; [reflexivity|].
    rewrite run_gbind, run_gmeth_reader. unfold send_eof. rewrite Es. reflexivity. }
  rewrite B in Wp. rewrite step_parser_eq. cbn [m_parser m_reader m_conn m_exc]. rewrite P, Wp.
  eexists. split; [reflexivity|]. cbn [m_conn]. destruct (c_eof_sent (m_conn m)) eqn:Es; [auto|].
  unfold send_eof. rewrite Es. cbn. auto.
Qed.
End Run.
End Peer.
