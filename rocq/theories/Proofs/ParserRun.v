(* What the parser of a sans-I/O connection without extensions does with the frames it's given. *)
From Verif Require Import Base.Prelude Base.PreludeFacts Model.Utils Model.Streams Model.Frames
  Model.Http11 Model.Connection Spec.Rfc6455 Spec.FrameSpec Spec.Messages Spec.History
  Proofs.StreamsFacts Proofs.FramesFacts Proofs.ParserFacts Proofs.AtomicFacts Proofs.ConnectionFacts
  Proofs.Phases Proofs.Failing Properties.FrameCodec Properties.Connection.

(** Reading bytes doesn't depend on the state *)
Inductive same {S S' A} : gen S A -> gen S' A -> Prop :=
| same_ret a : same (GRet a) (GRet a)
| same_raise e : same (GRaise e) (GRaise e)
| same_exact n k k' : (forall r, same (k r) (k' r)) -> same (GReadExact n k) (GReadExact n k').
Lemma run_same {S S' A} (g : gen S A) (g' : gen S' A) : same g g' -> forall r x x',
  match run g r x with
  | ODone a r1 _ => run g' r x' = ODone a r1 x'
  | OFail e r1 _ => run g' r x' = OFail e r1 x'
  | OSusp _ r1 _ => exists g1, run g' r x' = OSusp g1 r1 x'
  end.
Proof.
  induction 1 as [a|e|n k k' Hk IH]; intros r x x'; cbn [run]; try reflexivity.
  destruct (n <? 0)%Z; [apply IH|]. destruct (lenZ (r_buffer r) <? n)%Z; [destruct (r_eof r); [apply IH|eauto]|apply IH].
Qed.
Lemma same_bind {S S' A B} (g : gen S A) (g' : gen S' A) (f : A -> gen S B) (f' : A -> gen S' B) :
  same g g' -> (forall a, same (f a) (f' a)) -> same (gbind g f) (gbind g' f').
Proof. induction 1; intros F; cbn [gbind]; [apply F|constructor|constructor; auto]. Qed.
Lemma same_lift {S S' A} (r : result A) : same (@glift S A r) (@glift S' A r).
Proof. destruct r; constructor. Qed.
Lemma same_read {S S'} n : same (@read_exact S n) (@read_exact S' n).
Proof. constructor. intros. apply same_lift. Qed.
Lemma same_wire {S S'} mask max : same (@parse_wire S mask max) (@parse_wire S' mask max).
Proof.
  unfold parse_wire. apply same_bind; [apply same_read|].
  intros [|x1 [|x2 [|]]]; try constructor.
  destruct (opcode_of_N _); [|constructor]. destruct (negb _); [constructor|].
  apply same_bind.
  { destruct (_ =? 126)%N; [|destruct (_ =? 127)%N]; try constructor; intros; apply same_bind; try apply same_lift; constructor. }
  intros n. apply same_bind.
  { destruct max; [destruct (_ <? _)%Z|]; constructor. }
  intros _. apply same_bind; [destruct mask; [apply same_read|constructor]|]. intros mb.
  apply same_bind; [apply same_read|]. intros d.
  apply same_bind; [destruct mask; [apply same_lift|constructor]|]. intros; constructor.
Qed.

(** The parser *)
Notation sconn := (Model.Connection.conn Empty_set).
Definition stream (b : bytes) : reader := {| r_buffer := b; r_eof := false |}.
Definition parsed (b : bytes) (c : sconn) : option (outcome sconn unit) := parse_all no_ext (parse_body no_ext) (stream b) c.
(* after [p], the parser is in state c *)
Definition Sim (c0 : sconn) (p : bytes) (c : sconn) : Prop := forall r, parsed (p ++ r) c0 = parsed r c.
(* the state in which frames are received; n: size of the message in progress *)
Record Ready (c0 : sconn) (n : option Z) (fs : list frame) (c : sconn) : Prop := {
  rd_state : c_state c = OPEN; rd_rcvd : c_close_rcvd c = false; rd_eof : c_eof_sent c = false;
  rd_side : c_side c = c_side c0; rd_max : c_max_size c = c_max_size c0; rd_size : c_cur_size c = n;
  rd_fits : forall m, c_max_size c0 = Some m -> match n with Some k => (0 <= k <= m)%Z | None => (0 <= m)%Z end;
  rd_events : c_events c = map EvFrame fs }.
(* the parser failed with e after [p], and reported frames fs *)
Definition Fatal (c0 : sconn) (p : bytes) (e : exn) (fs : list frame) : Prop :=
  closable e /\ forall r, exists r' c, parsed (p ++ r) c0 = Some (OFail e r' c) /\
    c_events c = map EvFrame fs /\ c_state c = OPEN /\ c_eof_sent c = false.
Definition limit (c0 : sconn) (n : option Z) : option Z :=
  match c_max_size c0 with None => None | Some m => match n with None => Some m | Some k => Some (m - k)%Z end end.
Lemma limit_next c0 n fs c : Ready c0 n fs c -> next_max_size c = limit c0 n.
Proof. intros [_ _ _ _ Hm Hn _ _]. unfold next_max_size, limit. now rewrite Hm, Hn. Qed.

Lemma no_exts (c : sconn) : c_exts c = [].
Proof. destruct (c_exts c) as [|[]]; reflexivity. Qed.
Lemma set_no_exts (c : sconn) l : set_exts c l = c.
Proof. destruct l as [|[]]. rewrite <- (no_exts c) at 1. now destruct c. Qed.

Lemma Sim_start c0 : Sim c0 [] c0.
Proof. intros r. reflexivity. Qed.
Lemma Sim_more c0 p c w c1 : Sim c0 p c ->
  (forall r, run (parse_body no_ext) (stream (w ++ r)) c = ODone tt (stream r) c1) -> Sim c0 (p ++ w) c1.
Proof.
  intros S R r. rewrite <- app_assoc, S. unfold parsed.
  destruct (run_parser_total no_ext (parser_fuel (stream r)) (parse_body no_ext) (stream r) c1 (le_n _)) as (o & Ho & _).
  rewrite (parse_all_intro no_ext _ _ _ _ o Ho). apply (parse_all_intro no_ext (Datatypes.S (parser_fuel (stream r)))).
  cbn [run_parser]. now rewrite (R r).
Qed.
Lemma Fatal_more c0 p c w e fs : Sim c0 p c -> closable e ->
  (forall r, exists r' c1, run (parse_body no_ext) (stream (w ++ r)) c = OFail e r' c1 /\
     c_events c1 = map EvFrame fs /\ c_state c1 = OPEN /\ c_eof_sent c1 = false) -> Fatal c0 (p ++ w) e fs.
Proof.
  intros S C R. split; [exact C|]. intros r. destruct (R r) as (r' & c1 & R1 & R2). exists r', c1. split; [|exact R2].
  rewrite <- app_assoc, S. apply (parse_all_intro no_ext 1). cbn [run_parser]. now rewrite R1.
Qed.

Definition rest_of_body (c : sconn) : gen sconn unit :=
  let* f := parse_frame no_ext c_exts set_exts (is_server (c_side c)) (next_max_size c) in
  let* _ := gmeth (process_frame no_ext f) in
  gmeth (mupd (fun c => set_events c (c_events c ++ [EvFrame f]))).
Lemma run_body b (c : sconn) : b <> [] -> run (parse_body no_ext) (stream b) c = run (rest_of_body c) (stream b) c.
Proof. intros N. unfold parse_body. rewrite run_gbind. cbn [run at_eof stream r_buffer]. destruct b; [contradiction|reflexivity]. Qed.

(* what follows once the bytes of a frame were read *)
Definition framed_run (f : frame) (r : reader) (c : sconn) : outcome sconn unit :=
  match check f with
  | Raise e => OFail e r c
  | Ok _ => match process_frame no_ext f c with
            | (c1, Ok _) => ODone tt r (set_events c1 (c_events c1 ++ [EvFrame f]))
            | (c1, Raise e) => OFail e r c1
            end
  end.
Lemma run_rest b (c : sconn) : 
  run (rest_of_body c) (stream b) c =
  match run (parse_wire (is_server (c_side c)) (next_max_size c)) (stream b) c with
  | ODone f r _ => framed_run f r c
  | OFail e r c1 => OFail e r c1
  | OSusp g r c1 => run (rest_of_body c) (stream b) c
  end.
Proof.
  destruct (run (parse_wire _ _) _ _) as [g r c1|f r c1|e r c1] eqn:W; [reflexivity| |];
    unfold rest_of_body, parse_frame; rewrite run_gbind, run_gbind, W; cbn [obind]; [|reflexivity].
  apply parse_wire_inv in W as (-> & _). cbn [run get_state gbind]. rewrite (no_exts c). cbn [decode_reversed].
  rewrite run_gbind. cbn [put_state run obind glift gbind]. rewrite set_no_exts. unfold framed_run.
  destruct (check f) as [[]|e]; cbn [glift gbind run obind]; [|reflexivity].
  rewrite run_gbind, run_gmeth_reader. destruct (process_frame no_ext f c) as [c1 [[]|e]]; cbn [obind]; [|reflexivity].
  now rewrite run_gmeth_reader.
Qed.

(** A frame *)
Definition size_after (n : option Z) (f : frame) : option Z :=
  match f_opcode f with
  | TEXT | BINARY | CONT =>
      if f_fin f then None else Some (match n with Some k => k | None => 0 end + lenZ (f_data f))%Z
  | _ => n
  end.
Definition in_order (n : option Z) (f : frame) : Prop :=
  match f_opcode f, n with
  | TEXT, Some _ | BINARY, Some _ | CONT, None => False
  | _, _ => True
  end.

Lemma ctrl_frame_sent (c : sconn) op data : c_state c = OPEN -> is_ctrl op = true -> (lenN data <= 125)%N ->
  exists w, send_frame no_ext (mkframe true op data) c = (after_send c [] w, Ok tt).
Proof.
  intros So Hc L. unfold send_frame. rewrite So. unfold serialize.
  assert (Ck : check (mkframe true op data) = Ok tt).
  { unfold check, mkframe. cbn [f_rsv1 f_rsv2 f_rsv3 f_opcode f_data f_fin orb negb]. rewrite Hc.
    destruct (N.ltb_spec 125 (lenN data)); [lia|reflexivity]. }
  rewrite Ck, (no_exts c). cbn [encode_in_order].
  destruct (wire_succeeds (mkframe true op data) (is_client (c_side c)) (key_bytes (c_keys c (c_draws c))) eq_refl) as (w & Hw).
  { cbn [mkframe f_data]. apply (N.le_lt_trans _ _ _ L). reflexivity. }
  rewrite Hw. exists w. unfold after_send. cbn [c_side set_exts]. destruct (is_client (c_side c)); reflexivity.
Qed.
Lemma ctrl_small f : check f = Ok tt -> is_ctrl (f_opcode f) = true -> (lenN (f_data f) <= 125)%N.
Proof.
  unfold check. destruct (_ || _ || _); [discriminate|]. intros H Hc. rewrite Hc in H. revert H.
  destruct (N.ltb_spec 125 (lenN (f_data f))); [discriminate|auto].
Qed.
Lemma send_keeps (c : sconn) w : c_state (after_send c [] w) = c_state c /\ c_close_rcvd (after_send c [] w) = c_close_rcvd c /\
  c_eof_sent (after_send c [] w) = c_eof_sent c /\ c_side (after_send c [] w) = c_side c /\
  c_max_size (after_send c [] w) = c_max_size c /\ c_cur_size (after_send c [] w) = c_cur_size c /\
  c_events (after_send c [] w) = c_events c.
Proof. unfold after_send. cbn [c_side set_exts]. destruct (is_client (c_side c)); repeat split. Qed.

(* the frames which don't close the connection *)
Lemma frame_processed c0 n fs c f : Ready c0 n fs c -> check f = Ok tt -> fits (limit c0 n) (length (f_data f)) ->
  f_opcode f <> CLOSE -> in_order n f ->
  exists c1, process_frame no_ext f c = (c1, Ok tt) /\
    Ready c0 (size_after n f) (fs ++ [f]) (set_events c1 (c_events c1 ++ [EvFrame f])).
Proof.
  intros [H1 H2 H3 H4 H5 H6 H7 H8] Ck Ft Nc O. unfold process_frame, size_after, in_order in *. unfold limit in Ft.
  assert (Fin : forall c1 n', c_state c1 = OPEN -> c_close_rcvd c1 = false -> c_eof_sent c1 = false -> c_side c1 = c_side c0 ->
    c_max_size c1 = c_max_size c0 -> c_cur_size c1 = n' -> c_events c1 = map EvFrame fs ->
    (forall m, c_max_size c0 = Some m -> match n' with Some k => (0 <= k <= m)%Z | None => (0 <= m)%Z end) ->
    Ready c0 n' (fs ++ [f]) (set_events c1 (c_events c1 ++ [EvFrame f]))).
  { intros c1 n' A1 A2 A3 A4 A5 A6 A7 A8. split; try assumption. cbn [c_events set_events]. now rewrite A7, map_app. }
  assert (Nn : forall m, c_max_size c0 = Some m -> (0 <= m)%Z).
  { intros m Hm. specialize (H7 m Hm). destruct n; [|exact H7]. rewrite Hm in Ft. cbn [fits] in Ft. lia. }
  destruct (f_opcode f) eqn:Op; rewrite ?H2; try contradiction.
  - (* CONT *) destruct n as [k|]; [|contradiction]. rewrite H6. destruct (f_fin f); eexists; (split; [reflexivity|]); apply Fin; auto.
    intros m Hm. rewrite Hm in Ft. cbn [fits] in Ft. unfold lenZ. lia.
  - destruct n as [k|]; [contradiction|]. rewrite H6. destruct (f_fin f); eexists; (split; [reflexivity|]); apply Fin; auto.
    intros m Hm. rewrite Hm in Ft. cbn [fits] in Ft. unfold lenZ. lia.
  - destruct n as [k|]; [contradiction|]. rewrite H6. destruct (f_fin f); eexists; (split; [reflexivity|]); apply Fin; auto.
    intros m Hm. rewrite Hm in Ft. cbn [fits] in Ft. unfold lenZ. lia.
  - destruct (ctrl_frame_sent c PONG (f_data f) H1 eq_refl) as (w & Hw); [apply ctrl_small; [exact Ck|now rewrite Op]|].
    rewrite Hw. eexists. split; [reflexivity|]. destruct (send_keeps c w) as (A1 & A2 & A3 & A4 & A5 & A6 & A7).
    apply Fin; try congruence. exact H7.
  - eexists. split; [reflexivity|]. apply Fin; auto.
Qed.

Lemma wire_nonempty (f : frame) key w : layout (on_wire f key) w -> w <> [].
Proof. intros (ext & b0 & b1 & k & body & -> & _). discriminate. Qed.

(* frame f is at the beginning of the data *)
Definition arrives (c0 : sconn) (n : option Z) (f : frame) (w : bytes) : Prop :=
  exists key, layout (on_wire f key) w /\ is_masked (on_wire f key) = is_server (c_side c0) /\ fits (limit c0 n) (length (f_data f)).
Lemma arrives_run c0 n fs c f w : Ready c0 n fs c -> arrives c0 n f w ->
  forall r, run (parse_body no_ext) (stream (w ++ r)) c = framed_run f (stream r) c.
Proof.
  intros Rd (key & L & M & F) r. rewrite run_body; [|intros Q; apply app_eq_nil in Q as [Q _]; exact (wire_nonempty _ _ _ L Q)].
  rewrite run_rest, (limit_next c0 n fs c Rd), (rd_side c0 n fs c Rd).
  destruct (parse_wire_layout (is_server (c_side c0)) (limit c0 n) _ w r (stream (w ++ r)) c L eq_refl) as (res & V & R).
  assert (Kn : kind_of_opcode (w_opcode (on_wire f key)) <> None) by (apply kind_opcode; cbn; eauto).
  inversion V as [K'|K' M'|mm K' M' EM F'|f0 key0 M' F' O]; subst res; try contradiction.
  assert (f0 = f) as ->.
  { unfold on_wire in O. injection O as O1 O2 O3 O4 O5 O6 O7. destruct f as [fi o d a1 a2 a3], f0 as [fi' o' d' b1 b2 b3].
    cbn in *. subst. f_equal. clear -O5. destruct o, o'; try reflexivity; discriminate. }
  now rewrite R.
Qed.

Lemma Sim_frame c0 p n fs c f w : Sim c0 p c -> Ready c0 n fs c -> arrives c0 n f w -> check f = Ok tt ->
  f_opcode f <> CLOSE -> in_order n f ->
  exists c1, Sim c0 (p ++ w) c1 /\ Ready c0 (size_after n f) (fs ++ [f]) c1.
Proof.
  intros S Rd A Ck Nc O. pose proof A as (key & _ & _ & F).
  destruct (frame_processed c0 n fs c f Rd Ck F Nc O) as (c1 & P & Rd1). eexists. split; [|exact Rd1].
  apply (Sim_more c0 p c w); [exact S|]. intros r. rewrite (arrives_run c0 n fs c f w Rd A). unfold framed_run. now rewrite Ck, P.
Qed.
Lemma Fatal_process c0 p n fs c f w e c1 : Sim c0 p c -> Ready c0 n fs c -> arrives c0 n f w -> check f = Ok tt -> closable e ->
  process_frame no_ext f c = (c1, Raise e) -> c_state c1 = OPEN -> c_eof_sent c1 = false -> Fatal c0 (p ++ w) e fs.
Proof.
  intros S Rd A Ck C P So Es. apply (Fatal_more c0 p c w e fs S C). intros r. exists (stream r), c1.
  rewrite (arrives_run c0 n fs c f w Rd A). unfold framed_run. rewrite Ck, P. split; [reflexivity|]. split; [|now split].
  pose proof (process_frame_quiet no_ext f c) as [Q _]. rewrite P in Q. cbn [fst] in Q. rewrite Q. exact (rd_events c0 n fs c Rd).
Qed.
Lemma Fatal_order c0 p n fs c f w : Sim c0 p c -> Ready c0 n fs c -> arrives c0 n f w -> check f = Ok tt -> ~ in_order n f ->
  exists msg, Fatal c0 (p ++ w) (ProtocolError msg) fs.
Proof.
  intros S Rd A Ck O. pose proof Rd as [H1 H2 H3 H4 H5 H6 H7 H8]. unfold in_order in O.
  destruct (f_opcode f) eqn:Op, n as [k|]; try (exfalso; now apply O);
    (eexists; eapply (Fatal_process c0 p _ fs c f w _ c S Rd A Ck); [| |assumption|assumption];
     [|unfold process_frame; rewrite Op, H2, H6; reflexivity]); closable_msg.
Qed.
Lemma Fatal_close c0 p n fs c f w e : Sim c0 p c -> Ready c0 n fs c -> arrives c0 n f w -> check f = Ok tt -> f_opcode f = CLOSE ->
  parse_close (f_data f) = Raise e -> Fatal c0 (p ++ w) e fs.
Proof.
  intros S Rd A Ck Op Pc. pose proof Rd as [H1 H2 H3 H4 H5 H6 H7 H8].
  eapply (Fatal_process c0 p n fs c f w e _ S Rd A Ck (closable_parse_close f e Ck Op Pc)).
  - unfold process_frame. rewrite Op, Pc. reflexivity.
  - exact H1.
  - exact H3.
Qed.
Lemma Fatal_incomplete c0 p k fs c f w x : Sim c0 p c -> Ready c0 (Some k) fs c -> arrives c0 (Some k) f w -> check f = Ok tt ->
  f_opcode f = CLOSE -> parse_close (f_data f) = Ok x -> exists msg, Fatal c0 (p ++ w) (ProtocolError msg) fs.
Proof.
  intros S Rd A Ck Op Pc. pose proof Rd as [H1 H2 H3 H4 H5 H6 H7 H8]. destruct x as [code reason].
  eexists. eapply (Fatal_process c0 p _ fs c f w _ _ S Rd A Ck);
    [|unfold process_frame; rewrite Op, Pc; cbn [set_close c_cur_size set_close_rcvd]; rewrite H6; reflexivity| |].
  - closable_msg.
  - exact H1.
  - exact H3.
Qed.
Lemma Sim_close c0 p fs c f w x : Sim c0 p c -> Ready c0 None fs c -> arrives c0 None f w -> check f = Ok tt ->
  f_opcode f = CLOSE -> parse_close (f_data f) = Ok x ->
  exists c1, Sim c0 (p ++ w) c1 /\ c_events c1 = map EvFrame (fs ++ [f]).
Proof.
  intros S Rd A Ck Op Pc. pose proof Rd as [H1 H2 H3 H4 H5 H6 H7 H8]. destruct x as [code reason].
  assert (P : exists c1, process_frame no_ext f c = (c1, Ok tt)).
  { unfold process_frame. rewrite Op, Pc. cbv zeta. set (c2 := set_close (set_close_rcvd c true) code reason).
    assert (K1 : c_cur_size c2 = None) by exact H6. assert (K2 : c_state c2 = OPEN) by exact H1.
    rewrite K1, K2. cbn [is_open]. unfold mseq.
    destruct (ctrl_frame_sent c2 CLOSE (f_data f)) as (w' & Hw); [exact H1|reflexivity|apply ctrl_small; [exact Ck|now rewrite Op]|].
    rewrite Hw. destruct (send_keeps c2 w') as (A1 & A2 & A3 & A4 & _). unfold start_closing, mseq, mupd.
    destruct (is_server _); [|eexists; reflexivity]. unfold send_eof. cbn [c_eof_sent set_state].
    replace (c_eof_sent (after_send c2 [] w')) with false by (rewrite A3; symmetry; exact H3). eexists. reflexivity. }
  destruct P as (c1 & P). exists (set_events c1 (c_events c1 ++ [EvFrame f])). split.
  - apply (Sim_more c0 p c w); [exact S|]. intros r. rewrite (arrives_run c0 None fs c f w Rd A). unfold framed_run. now rewrite Ck, P.
  - pose proof (process_frame_quiet no_ext f c) as [Q _]. rewrite P in Q. cbn [fst] in Q. cbn [c_events set_events].
    now rewrite Q, H8, map_app.
Qed.

(** Something that isn't a frame, or not yet *)
Lemma Fatal_read c0 p n fs c buf exts e r x : Sim c0 p c -> Ready c0 n fs c ->
  run (frame_parse no_ext (is_server (c_side c0)) (limit c0 n)) (stream buf) exts = OFail e r x ->
  exists q rest, buf = q ++ rest /\ Fatal c0 (p ++ q) e fs.
Proof.
  intros S Rd. pose proof Rd as [H1 H2 H3 H4 H5 H6 H7 H8]. destruct exts as [|[]]. rewrite frame_parse_noext.
  assert (Ml : forall f : frame, fits (limit c0 n) (length (f_data f)) \/ True) by auto.
  destruct (run (parse_wire _ _) (stream buf) []) as [g r1 x1|f r1 x1|e1 r1 x1] eqn:W; [discriminate| |].
  - destruct (check f) as [[]|e2] eqn:Ck; [discriminate|]. intros Q. injection Q as -> -> _.
    apply parse_wire_inv in W as (_ & _ & w & key & Hb & L & M & F). cbn [stream r_buffer] in Hb.
    exists w, (r_buffer r). split; [exact Hb|].
    assert (A : arrives c0 n f w) by (exists key; auto).
    apply (Fatal_more c0 p c w e fs S).
    + unfold check in Ck. destruct (f_rsv1 f || f_rsv2 f || f_rsv3 f); [injection Ck as <-; closable_msg|].
      destruct (is_ctrl (f_opcode f)); [|discriminate].
      destruct (125 <? lenN (f_data f))%N; [injection Ck as <-; closable_msg|].
      destruct (negb (f_fin f)); [injection Ck as <-; closable_msg|discriminate].
    + intros r'. exists (stream r'), c. rewrite (arrives_run c0 n fs c f w Rd A). unfold framed_run. rewrite Ck. auto.
  - intros Q. injection Q as -> -> _. exists buf, []. split; [now rewrite app_nil_r|].
    pose proof (run_same _ _ (same_wire (is_server (c_side c0)) (limit c0 n)) (stream buf) (@nil Empty_set) c) as Q.
    rewrite W in Q. apply wire_fails in W as (_ & We & Eo).
    apply (Fatal_more c0 p c buf e fs S).
    + destruct We as [->|[->|[->|(k & m & Hm & L1 & L2 & ->)]]]; [now left|closable_msg|closable_msg|].
      apply Failing.closable_too_big; auto. unfold limit in Hm. destruct (c_max_size c0) as [mx|]; [|discriminate].
      specialize (H7 mx eq_refl). destruct n; injection Hm as <-; lia.
    + intros r'. pose proof (run_feed (parse_wire (is_server (c_side c0)) (limit c0 n)) (stream buf) c r'
        (live_live_at _ _ (live_parse_wire _ _)) eq_refl) as G. rewrite Q in G. destruct G as [G _].
      exists (grow r r'), c. split; [|auto].
      rewrite run_body.
      * rewrite run_rest, (limit_next c0 n fs c Rd), H4.
        change (stream (buf ++ r')) with (grow (stream buf) r'). now rewrite G.
      * destruct buf; [|discriminate]. discriminate Q.
Qed.
Lemma waiting_read c0 p n fs c buf exts g r x : Sim c0 p c -> Ready c0 n fs c ->
  run (frame_parse no_ext (is_server (c_side c0)) (limit c0 n)) (stream buf) exts = OSusp g r x ->
  exists g1 r1, parsed (p ++ buf) c0 = Some (OSusp g1 r1 c).
Proof.
  intros S Rd. pose proof Rd as [H1 H2 H3 H4 H5 H6 H7 H8]. destruct exts as [|[]]. rewrite frame_parse_noext. rewrite S.
  destruct (run (parse_wire _ _) (stream buf) []) as [g2 r2 x2|f r2 x2|e2 r2 x2] eqn:W; [|destruct (check f); discriminate|discriminate].
  intros _. pose proof (run_same _ _ (same_wire (is_server (c_side c0)) (limit c0 n)) (stream buf) (@nil Empty_set) c) as Q.
  rewrite W in Q. destruct Q as (g3 & Q).
  destruct buf as [|b0 buf].
  - eexists _, _. apply (parse_all_intro no_ext 1). reflexivity.
  - eexists _, _. apply (parse_all_intro no_ext 1). cbn [run_parser]. rewrite run_body by discriminate.
    unfold rest_of_body, parse_frame. rewrite run_gbind, run_gbind, (limit_next c0 n fs c Rd), H4, Q. cbn [obind]. reflexivity.
Qed.

(** Events *)
Lemma parsed_more b (c : sconn) : match parsed b c with
  | Some (OSusp _ _ c1) | Some (OFail _ _ c1) | Some (ODone _ _ c1) => exists gs, c_events c1 = c_events c ++ map EvFrame gs
  | None => True
  end.
Proof.
  assert (G : forall f (g : gen sconn unit) r c, safe frames_only None g ->
    match run_parser no_ext f g r c with
    | Some (OSusp _ _ c1) | Some (OFail _ _ c1) | Some (ODone _ _ c1) => frames_only c c1
    | None => True
    end).
  { induction f as [|f IH]; intros g r c1 Sg; [exact I|]. cbn [run_parser].
    pose proof (run_safe frames_only g frames_refl frames_trans r c1 None Sg I) as R.
    destruct (run g r c1) as [g' r' c'|a r' c'|e r' c']; [apply R| |exact R].
    specialize (IH (parse_body no_ext) r' c' (parse_body_safe no_ext None)).
    destruct (run_parser no_ext f (parse_body no_ext) r' c') as [[]|]; auto; now apply (frames_trans _ c'). }
  specialize (G (parser_fuel (stream b)) (parse_body no_ext) (stream b) c (parse_body_safe no_ext None)).
  change (run_parser no_ext (parser_fuel (stream b)) (parse_body no_ext) (stream b) c) with (parsed b c) in G.
  destruct (parsed b c) as [[]|]; auto; apply G.
Qed.

Lemma fail_closable e code reason (c : sconn) : close_code_for e = (code, reason) -> closable e -> c_state c = OPEN -> c_eof_sent c = false ->
  exists c1, fail_connection no_ext code reason c = (c1, Ok tt).
Proof.
  intros Hc Cl So Es. unfold fail_connection, mseq.
  destruct Cl as [->|(data & Sc & L)].
  - cbn [close_code_for] in Hc. injection Hc as <- <-. cbn [negb andb Z.eqb Pos.eqb mret]. rewrite Es. unfold send_eof. rewrite Es. eauto.
  - rewrite Hc in Sc. cbn [fst snd] in Sc. rewrite So. cbn [is_open]. rewrite Bool.andb_true_r.
    destruct (negb (code =? 1006)%Z); [|cbn [mret]; rewrite Es; unfold send_eof; rewrite Es; eauto].
    rewrite Sc. destruct (ctrl_frame_sent c CLOSE data So eq_refl L) as (w & ->).
    destruct (send_keeps c w) as (A1 & A2 & A3 & _). cbn [mupd].
    cbn [c_eof_sent set_state]. rewrite A3, Es. unfold send_eof. cbn [c_eof_sent set_state]. rewrite A3, Es. eauto.
Qed.

(** The connection *)
Lemma fed sd mx keys chunks m rs : chunks <> [] ->
  do_calls no_ext (new_connection no_ext sd OPEN mx keys) (map CReceiveData chunks) = (m, rs) ->
  let c0 := new_conn sd OPEN mx keys in
  match parsed (concat chunks) c0 with
  | Some (OSusp _ _ c) => all_events rs m = c_events c /\ first_error rs = None
  | Some (OFail e _ c) => all_events rs m = c_events c /\
      (closable e -> c_state c = OPEN -> c_eof_sent c = false -> first_error rs = Some e)
  | _ => False
  end.
Proof.
  intros Ne H c0. destruct chunks as [|d ds]; [contradiction|].
  assert (D : forall ds m0 m1 rs1, do_calls no_ext m0 (map CReceiveData ds) = (m1, rs1) -> flat_map delivered_by rs1 = []).
  { clear. induction ds as [|d ds IH]; intros m0 m1 rs1; cbn [map do_calls].
    - intros Q. now injection Q as _ <-.
    - cbn [do_call]. destruct (receive_data no_ext m0 d) as [m2 r2]. destruct (do_calls no_ext m2 (map CReceiveData ds)) as [m3 rs3] eqn:Q3.
      intros Q. injection Q as _ <-. cbn [flat_map]. rewrite (IH _ _ _ Q3). now destruct r2 as [[]|]. }
  assert (Ev : all_events rs m = c_events (m_conn m)) by (unfold all_events; now rewrite (D _ _ _ _ H)).
  destruct (feed_chunks no_ext ds (new_connection no_ext sd OPEN mx keys) d) as [F1 F2].
  { exact (start_live no_ext (parse_body no_ext) c0 (live_parse_body no_ext)). }
  rewrite H in F1, F2. cbn [fst snd] in F1, F2. rewrite Ev, F1, F2. clear F1 F2 Ev D H.
  change (new_connection no_ext sd OPEN mx keys) with (Machine c0 reader_init (PRun (parse_body no_ext)) None).
  rewrite receive_data_eq. cbn [m_reader reader_init r_eof]. rewrite step_parser_eq. cbn [grow_m m_parser m_reader m_conn m_exc].
  change (grow reader_init (d ++ concat ds)) with (stream (concat (d :: ds))).
  change (parse_all no_ext (parse_body no_ext) (stream (concat (d :: ds))) c0) with (parsed (concat (d :: ds)) c0).
  destruct (parse_all_total no_ext (parse_body no_ext) (stream (concat (d :: ds))) c0) as [(g' & r' & c' & Q)|(e & r' & c' & Q)];
    unfold parsed; rewrite Q.
  - split; reflexivity.
  - destruct (close_code_for e) as [code reason] eqn:Cc.
    pose proof (fail_quiet no_ext code reason c') as [Fq _].
    destruct (fail_connection no_ext code reason c') as [c1 res] eqn:Fc. cbn [fst] in Fq.
    split; [destruct res; cbn [fst m_conn]; exact Fq|].
    intros Cl So Es. destruct (fail_closable e code reason c' Cc Cl So Es) as (c2 & Fc'). rewrite Fc in Fc'. injection Fc' as -> ->. reflexivity.
Qed.

(* what the connection reports *)
Lemma frames_of_frames l : frames_of (map EvFrame l) = l.
Proof. induction l as [|f l IH]; [reflexivity|]. cbn [map]. unfold frames_of in *. cbn [flat_map app]. now rewrite IH. Qed.
Lemma Sim_reports sd mx keys chunks m rs p c fs : chunks <> [] ->
  do_calls no_ext (new_connection no_ext sd OPEN mx keys) (map CReceiveData chunks) = (m, rs) ->
  Sim (new_conn sd OPEN mx keys) p c -> c_events c = map EvFrame fs -> (exists r, concat chunks = p ++ r) ->
  exists later, frames_of (all_events rs m) = fs ++ later.
Proof.
  intros Ne H S He (r & Hr). pose proof (fed sd mx keys chunks m rs Ne H) as F. cbv zeta in F. rewrite Hr, S in F.
  pose proof (parsed_more r c) as M.
  pose proof frames_of_frames as Fr.
  assert (G : forall c1 : sconn, (exists gs, c_events c1 = c_events c ++ map EvFrame gs) -> all_events rs m = c_events c1 ->
    exists later, frames_of (all_events rs m) = fs ++ later).
  { intros c1 (gs & Q) ->. rewrite Q, He, <- map_app, Fr. eauto. }
  destruct (parsed r c) as [[g1 r1 c1|[] r1 c1|e r1 c1]|]; try contradiction; destruct F as [F _]; exact (G c1 M F).
Qed.
Lemma Fatal_reports sd mx keys chunks m rs p e fs : chunks <> [] ->
  do_calls no_ext (new_connection no_ext sd OPEN mx keys) (map CReceiveData chunks) = (m, rs) ->
  Fatal (new_conn sd OPEN mx keys) p e fs -> (exists r, concat chunks = p ++ r) ->
  frames_of (all_events rs m) = fs /\ first_error rs = Some e.
Proof.
  intros Ne H (Cl & S) (r & Hr). pose proof (fed sd mx keys chunks m rs Ne H) as F. cbv zeta in F.
  destruct (S r) as (r' & c & Q & He & So & Es). rewrite Hr, Q in F. destruct F as [F1 F2]. split; [|exact (F2 Cl So Es)].
  rewrite F1, He. apply frames_of_frames.
Qed.
