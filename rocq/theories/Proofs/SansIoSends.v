(* What a sans-I/O connection writes, in terms of the calls made on it, when its extensions encode data frames (for C92). *)
From Verif Require Import Base.Prelude Base.PreludeFacts Model.Utils Model.Streams Model.Frames
  Model.Http11 Model.Connection Spec.Rfc6455 Spec.FrameSpec Spec.Messages Spec.History Spec.Endpoints
  Proofs.StreamsFacts Proofs.FramesFacts Proofs.ParserFacts Proofs.AtomicFacts Proofs.ConnectionFacts
  Proofs.Steps Proofs.MessagesFacts Proofs.Invariants Proofs.SendInvariants Proofs.MoreInvariants
  Proofs.Receive Proofs.Failing Properties.FrameCodec Properties.Connection Properties.Closing Proofs.ParserRun Proofs.SansIoEnds.

Lemma frames_app is is' : sent_frames (is ++ is') = sent_frames is ++ sent_frames is'.
Proof. unfold sent_frames. apply flat_map_app. Qed.
Lemma frames_only_eof is : only_eof is -> sent_frames is = [].
Proof. intros H. induction is as [|i is IH]; [reflexivity|]. rewrite (H i) by now left. apply IH. intros j Hj. apply H. now right. Qed.
Definition in_progress (cur : list frame) : bool := match cur with [] => false | _ => true end.
Definition asked1 (k : call) (r : ret) : list frame :=
  match data_call k, r with Some (o, data, fin), RNone => [mkframe fin o data] | _, _ => [] end.
Lemma asked_snoc ks rs k r : length ks = length rs -> asked (ks ++ [k]) (rs ++ [r]) = asked ks rs ++ asked1 k r.
Proof.
  revert rs. induction ks as [|k' ks IH]; intros [|r' rs] L; try discriminate L.
  - unfold asked. cbn. rewrite app_nil_r. now destruct k, r.
  - injection L as L. specialize (IH rs L). unfold asked in *. cbn [app combine flat_map]. now rewrite IH, app_assoc.
Qed.
Lemma returned_length {E} (X : ext_ops E) ks : forall m m' rs, do_calls X m ks = (m', rs) -> length ks = length rs.
Proof.
  induction ks as [|k ks IH]; intros m m' rs D; cbn [do_calls] in D; [apply pair_equal_spec in D as [_ <-]; reflexivity|].
  destruct (do_call X m k) as [m1 r]. destruct (do_calls X m1 ks) as [m2 rs2] eqn:D2. apply pair_equal_spec in D as [_ <-].
  cbn [length]. now rewrite (IH _ _ _ D2).
Qed.

Section Sends.
Context {E : Type} (X : ext_ops E) (limit : N) (Enc : list (frame * frame) -> list E -> Prop).
Implicit Types c : conn E.
Notation names := (map fst).
(* Enc ps exts: the extensions encoded the frames, and are now in the state exts *)
Hypothesis Hdata : forall ps exts f done cur, Enc ps exts -> check f = Ok tt -> is_data_b f = true -> (lenN (f_data f) < limit)%N ->
  message_sequence (names ps) done cur -> next_ok cur f ->
  exists exts' g, encode_in_order X exts f = (exts', Ok g) /\ (lenN (f_data g) < 2 ^ 64)%N /\
    f_opcode g = f_opcode f /\ f_fin g = f_fin f /\ Enc (ps ++ [(f, g)]) exts'.
Hypothesis Hctl : forall ps exts, Enc ps exts -> plain_ctrl X exts /\ forall f, is_ctrl (f_opcode f) = true -> check f = Ok tt -> Enc (ps ++ [(f, f)]) exts.
Hypothesis Hdec : forall ps exts g n exts' r, Enc ps exts -> decode_reversed X exts g n = (exts', r) -> Enc ps exts'.

(* gs was written; D are the data frames the program sent *)
Record Sst (D gs : list frame) c (ps : list (frame * frame)) : Prop := {
  ss_written : map snd ps = gs;
  ss_enc : Enc ps (c_exts c);
  ss_data : data_frames (names ps) = D;
  ss_ok : Forall (fun f => check f = Ok tt /\ good_close f) (names ps);
  ss_framing : Forall (fun p => f_opcode (snd p) = f_opcode (fst p) /\ f_fin (snd p) = f_fin (fst p)) ps;
  ss_ctrl : Forall (fun p => is_ctrl (f_opcode (fst p)) = true -> snd p = fst p) ps;
  ss_messages : exists done cur, message_sequence (names ps) done cur /\ (c_state c = OPEN -> c_expect_cont c = in_progress cur) }.
Definition Sends (D gs : list frame) c : Prop := exists ps, Sst D gs c ps.

Lemma Sends_more D gs c c' : Sends D gs c -> c_exts c' = c_exts c ->
  (c_state c' = OPEN -> c_state c = OPEN /\ c_expect_cont c' = c_expect_cont c) -> Sends D gs c'.
Proof.
  intros (ps & [S1 S2 S3 S4 S5 S6 (done & cur & Ms & Ec)]) Ex St. exists ps. split; auto; [now rewrite Ex|].
  exists done, cur. split; [exact Ms|]. intros So. destruct (St So) as (So' & ->). exact (Ec So').
Qed.
Lemma Sends_decoded D gs c g n exts r : Sends D gs c -> decode_reversed X (c_exts c) g n = (exts, r) -> Sends D gs (set_exts c exts).
Proof. intros (ps & [S1 S2 S3 S4 S5 S6 S7]) De. exists ps. split; auto. exact (Hdec _ _ _ _ _ _ S2 De). Qed.
Lemma Sends_received D gs c f exts : Sends D gs c -> received X c f exts -> Sends D gs (set_exts c exts).
Proof. intros S (f0 & _ & De & _). exact (Sends_decoded _ _ _ _ _ _ _ S De). Qed.
Lemma ctl_unsendable D gs c f exts e : Sends D gs c -> unsendable X c f exts e -> is_ctrl (f_opcode f) = true -> exts = c_exts c.
Proof.
  intros (ps & S) U Hi. destruct (Hctl _ _ (ss_enc _ _ _ _ S)) as (Pl & _). pose proof (Pl f Hi) as En.
  destruct U as [(_ & D1 & _)|[(_ & D1 & _)|[(_ & _ & D1)|(_ & _ & _ & f2 & D1 & _)]]]; [exact D1|exact D1| |]; congruence.
Qed.
Lemma ctl_sendable D gs c f exts f' : Sends D gs c -> sendable X c f exts f' -> is_ctrl (f_opcode f) = true -> good_close f ->
  f' = f /\ exts = c_exts c /\ Sends D (gs ++ [f']) c.
Proof.
  intros (ps & S) (So & Ck & En & L) Hi Gc. destruct (Hctl _ _ (ss_enc _ _ _ _ S)) as (Pl & Add). rewrite (Pl f Hi) in En.
  apply pair_equal_spec in En as [<- En]. apply ok_inj in En. subst f'. split; [reflexivity|]. split; [reflexivity|].
  destruct S as [S1 S2 S3 S4 S5 S6 (done & cur & Ms & Ec)].
  assert (Df : is_data_b f = false) by (unfold is_data_b; destruct (f_opcode f); try reflexivity; discriminate Hi).
  exists (ps ++ [(f, f)]). split.
  - now rewrite map_app, S1.
  - exact (Add f Hi Ck).
  - rewrite map_app. cbn [map fst]. rewrite data_frames_app, S3. unfold data_frames. cbn [filter]. rewrite Df. apply app_nil_r.
  - rewrite map_app. apply Forall_app. split; [exact S4|]. constructor; [split; assumption|constructor].
  - apply Forall_app. split; [exact S5|]. constructor; [split; reflexivity|constructor].
  - apply Forall_app. split; [exact S6|]. constructor; [reflexivity|constructor].
  - exists done, cur. rewrite map_app. split; [apply message_ctrl; assumption|exact Ec].
Qed.

Definition Sinv (D : list frame) (a : abs E) : Prop := Sends D (sent_frames (a_is a)) (a_c a).

Lemma payload_parses code reason data : close_payload code reason = Ok data -> good_close (mkframe true CLOSE data).
Proof.
  intros Hp _. destruct code as [code|]; cbn [close_payload] in Hp.
  - apply parse_serialize_close in Hp. eauto.
  - destruct reason; [|discriminate]. injection Hp as <-. vm_compute. eauto.
Qed.
Lemma closing_only_eof c : sent_frames (closing_items c) = [] /\ sent_frames (eof_items c) = [].
Proof. unfold closing_items, eof_items. destruct (is_server (c_side c)), (c_eof_sent c); split; reflexivity. Qed.
Lemma sentc_exts c exts : c_exts (sentc c exts) = exts.
Proof. unfold sentc. cbn [c_side set_exts]. now destruct (is_client (c_side c)). Qed.
Lemma sentc_state c exts : c_state (sentc c exts) = c_state c /\ c_expect_cont (sentc c exts) = c_expect_cont c.
Proof. unfold sentc. cbn [c_side set_exts]. now destruct (is_client (c_side c)). Qed.
Lemma closing_exts c : c_exts (closing c) = c_exts c /\ c_state (closing c) = CLOSING.
Proof. unfold closing. cbn [c_side set_state]. now destruct (is_server (c_side c)). Qed.

Lemma quiet_step (K : call -> Prop) D x y : (forall k, K k -> data_call k = None) -> Sinv D x -> astep X K x y -> Sinv D y.
Proof.
  intros Nd I S. unfold Sinv in *.
  destruct S; cbn [a_is a_c] in *; rewrite ?frames_app; try (rewrite (proj1 (closing_only_eof c))); try (rewrite (proj2 (closing_only_eof c)));
    cbn [sent_frames flat_map app]; rewrite ?app_nil_r.
  - exfalso. rewrite (Nd k H) in H0. discriminate.
  - exfalso. rewrite (Nd k H) in H0. discriminate.
  - destruct (ctl_sendable _ _ _ _ _ _ I H2) as (-> & -> & I1).
    { cbn. destruct (ctrl_call_op _ _ _ H0) as [-> | ->]; reflexivity. }
    { intros Hc. destruct (ctrl_call_op _ _ _ H0) as [-> | ->]; discriminate Hc. }
    apply (Sends_more _ _ c); [exact I1|apply sentc_exts|]. intros So. destruct (sentc_state c (c_exts c)) as (Q & ->). rewrite Q in So. auto.
  - rewrite (ctl_unsendable _ _ _ _ _ _ I H2); [|cbn; destruct (ctrl_call_op _ _ _ H0) as [-> | ->]; reflexivity].
    rewrite core_eta. exact I.
  - destruct (ctl_sendable _ _ _ _ _ _ I H3) as (-> & -> & I1); [reflexivity|exact (payload_parses _ _ _ H2)|].
    apply (Sends_more _ _ c); [exact I1| |]; rewrite ?(proj1 (closing_exts _)), ?(proj2 (closing_exts _)); [apply sentc_exts|discriminate].
  - rewrite (ctl_unsendable _ _ _ _ _ _ I H3) by reflexivity. rewrite core_eta. exact I.
  - apply (Sends_more _ _ c); auto.
  - exact I.
  - destruct H as [(_ & ->)|(f0 & _ & [De|(f & De & _)])]; [rewrite core_eta; exact I| |]; exact (Sends_decoded _ _ _ _ _ _ _ I De).
  - apply (Sends_more _ _ (set_exts c exts)); [exact (Sends_received _ _ _ _ _ I H)|reflexivity|auto].
  - exact (Sends_received _ _ _ _ _ I H).
  - exact (Sends_received _ _ _ _ _ I H).
  - destruct (ctl_sendable _ _ _ _ _ _ (Sends_received _ _ _ _ _ I H) H2) as (-> & -> & I1); [reflexivity|discriminate|].
    apply (Sends_more _ _ (set_exts c exts)); [exact I1|apply sentc_exts|].
    intros So. match goal with |- _ /\ c_expect_cont (sentc ?a ?b) = _ => destruct (sentc_state a b) as (Q & ->) end. rewrite Q in So. auto.
  - rewrite (ctl_unsendable _ _ _ _ _ _ (Sends_received _ _ _ _ _ I H) H2) by reflexivity. exact (Sends_received _ _ _ _ _ I H).
  - apply (Sends_more _ _ (set_exts c exts)); [exact (Sends_received _ _ _ _ _ I H)|reflexivity|auto].
  - apply (Sends_more _ _ (set_exts c exts)); [exact (Sends_received _ _ _ _ _ I H)|reflexivity|auto].
  - apply (Sends_more _ _ (set_exts c exts)); [exact (Sends_received _ _ _ _ _ I H)|reflexivity|auto].
  - assert (I0 : Sends D (sent_frames is) (set_close (set_close_rcvd (set_exts c exts) true) code reason))
      by (apply (Sends_more _ _ (set_exts c exts)); [exact (Sends_received _ _ _ _ _ I H)|reflexivity|auto]).
    destruct (ctl_sendable _ _ _ _ _ _ I0 H4) as (-> & -> & I1); [reflexivity|intros _; eauto|].
    eapply Sends_more; [exact I1| |]; rewrite ?(proj1 (closing_exts _)), ?(proj2 (closing_exts _)); [apply sentc_exts|discriminate].
  - assert (I0 : Sends D (sent_frames is) (set_close (set_close_rcvd (set_exts c exts) true) code reason))
      by (apply (Sends_more _ _ (set_exts c exts)); [exact (Sends_received _ _ _ _ _ I H)|reflexivity|auto]).
    rewrite (ctl_unsendable _ _ _ _ _ _ I0 H4) by reflexivity. rewrite core_eta. exact I0.
  - assert (I0 : Sends D (sent_frames is) (set_close (set_close_rcvd (set_exts c exts) true) code reason))
      by (apply (Sends_more _ _ (set_exts c exts)); [exact (Sends_received _ _ _ _ _ I H)|reflexivity|auto]).
    destruct (ctl_sendable _ _ _ _ _ _ I0 H5) as (-> & -> & I1); [reflexivity|intros _; eauto|].
    eapply Sends_more; [exact I1| |]; rewrite ?(proj1 (closing_exts _)), ?(proj2 (closing_exts _)); [apply sentc_exts|discriminate].
  - destruct (ctl_sendable _ _ _ _ _ _ I H1) as (-> & -> & I1); [reflexivity| |].
    { intros _. apply parse_serialize_close in H0. eauto. }
    apply (Sends_more _ _ c); [exact I1|apply sentc_exts|discriminate].
  - apply (Sends_more _ _ c); auto.
  - destruct H1 as [(-> & _)|(data & e' & _ & U)]; [|rewrite (ctl_unsendable _ _ _ _ _ _ I U) by reflexivity]; rewrite core_eta; exact I.
Qed.

Lemma quiet_steps (K : call -> Prop) D x y : (forall k, K k -> data_call k = None) -> Sinv D x -> asteps X K x y -> Sinv D y.
Proof. intros Nd I S. induction S; [exact I|]. eapply quiet_step; eauto. Qed.

(** A call that sends data *)
Lemma data_step D is c c1 ws o data fin : written ws is -> Sends D (sent_frames is) c -> is_ctrl o = false ->
  may_send c o -> (lenN data < limit)%N -> forall r, send_frame X (mkframe fin o data) (set_expect_cont c (negb fin)) = (c1, r) ->
  exists ws' is', c_writes c1 = c_writes c ++ ws' /\ written (ws ++ ws') is' /\
    Sends (D ++ match r with Ok _ => [mkframe fin o data] | Raise _ => [] end) (sent_frames is') c1.
Proof.
  intros W S Ho My Ld r Sf. pose proof S as (ps & [S1 S2 S3 S4 S5 S6 (done & cur & Ms & Ec)]).
  assert (Ck : check (mkframe fin o data) = Ok tt) by (unfold check, mkframe; cbn; now rewrite Ho).
  assert (Db : is_data_b (mkframe fin o data) = true) by (destruct o; try discriminate Ho; reflexivity).
  assert (Gc : good_close (mkframe fin o data)) by (intros Hc; unfold is_close in Hc; cbn in Hc; subst o; discriminate Ho).
  set (cx := set_expect_cont c (negb fin)) in *. change (c_exts c) with (c_exts cx) in S2.
  destruct (send_frame_step X (mkframe fin o data) cx) as [(exts & e & Q & U)|(g & exts & w & Q & Sd & L)]; rewrite Q in Sf;
    apply pair_equal_spec in Sf as [<- <-].
  - (* only if the connection isn't open *)
    exists [], is. rewrite !app_nil_r. split; [reflexivity|]. split; [exact W|].
    assert (N : c_state c <> OPEN /\ exts = c_exts cx).
    { destruct U as [(N & D1 & _)|[(_ & _ & D1)|U]]; [auto|congruence|]. exfalso.
      assert (So : c_state c = OPEN) by (destruct U as [(So & _)|(So & _)]; exact So).
      assert (No : next_ok cur (mkframe fin o data)).
      { specialize (Ec So). unfold next_ok. cbn [f_opcode mkframe]. unfold may_send in My.
        destruct o; try discriminate Ho; rewrite My in Ec; destruct cur; discriminate Ec || congruence. }
      destruct (Hdata _ _ _ _ _ S2 Ck Db Ld Ms No) as (exts' & g & En & Lg & _).
      destruct U as [(_ & _ & En')|(_ & _ & _ & f2 & En' & L2)]; rewrite En in En'; apply pair_equal_spec in En' as [_ En']; [discriminate|].
      apply ok_inj in En'. subst f2. lia. }
    destruct N as (N & ->). apply (Sends_more _ _ c); [exact S|reflexivity|]. cbn [c_state set_exts set_expect_cont cx]. contradiction.
  - destruct Sd as (So & _ & En & _). change (c_state cx) with (c_state c) in So. specialize (Ec So).
    assert (No : next_ok cur (mkframe fin o data)).
    { unfold next_ok. cbn [f_opcode mkframe]. unfold may_send in My.
      destruct o; try discriminate Ho; rewrite My in Ec; destruct cur; discriminate Ec || congruence. }
    destruct (Hdata _ _ _ _ _ S2 Ck Db Ld Ms No) as (exts' & g' & En' & Lg & Og & Fg & Eg). rewrite En in En'.
    apply pair_equal_spec in En' as [<- En']. apply ok_inj in En'. subst g'.
    exists [w], (is ++ [Sent g (conn_key cx)]). split; [now rewrite after_send_writes|]. split; [apply written_app; [exact W|exact L]|].
    exists (ps ++ [(mkframe fin o data, g)]). pose proof (message_data _ _ _ _ Ms No) as Md. split.
    + rewrite frames_app, map_app, S1. reflexivity.
    + rewrite after_send_exts. exact Eg.
    + rewrite map_app. cbn [map fst]. rewrite data_frames_app, S3. unfold data_frames. cbn [filter]. now rewrite Db.
    + rewrite map_app. apply Forall_app. split; [exact S4|]. constructor; [split; assumption|constructor].
    + apply Forall_app. split; [exact S5|]. constructor; [split; assumption|constructor].
    + apply Forall_app. split; [exact S6|]. constructor; [|constructor]. cbn [fst snd mkframe f_opcode]. congruence.
    + assert (Ea : c_expect_cont (after_send cx exts w) = negb fin) by (unfold after_send; cbn [c_side set_exts]; now destruct (is_client (c_side cx))).
      rewrite Ea, map_app. cbn [map fst]. cbn [mkframe f_fin] in Md. destruct fin; cbn [negb].
      * exists (done ++ [cur ++ [mkframe true o data]]), []. split; [exact Md|reflexivity].
      * exists done, (cur ++ [mkframe false o data]). split; [exact Md|]. intros _. now destruct cur.
Qed.

Lemma data_call_step D is m k m' r o data fin rs : data_call k = Some (o, data, fin) -> (lenN data < limit)%N ->
  written (all_writes rs m) is -> Sends D (sent_frames is) (m_conn m) -> do_call X m k = (m', r) ->
  exists is', written (all_writes (rs ++ [r]) m') is' /\ Sends (D ++ asked1 k r) (sent_frames is') (m_conn m').
Proof.
  intros Dk Ld W S Dc.
  assert (G : (exists e, m' = m /\ r = RRaise e) \/
    may_send (m_conn m) o /\ exists c1 r1, send_frame X (mkframe fin o data) (set_expect_cont (m_conn m) (negb fin)) = (c1, r1) /\
      m' = Machine c1 (m_reader m) (m_parser m) (m_exc m) /\ r = ret_of r1).
  { destruct k; try discriminate Dk; cbn in Dk; apply some_inj in Dk; apply pair_equal_spec in Dk as [Dk <-];
      apply pair_equal_spec in Dk as [<- <-]; cbn [do_call] in Dc; unfold on_conn, send_text, send_binary, send_continuation in Dc; unfold may_send;
      destruct (c_expect_cont (m_conn m)); cbn [negb] in Dc; try unfold mraise in Dc;
      try (left; apply pair_equal_spec in Dc as [<- <-]; eexists; split; [destruct m; reflexivity|reflexivity]);
      right; (split; [reflexivity|]); match goal with H : context [send_frame X ?f ?c] |- _ => destruct (send_frame X f c) as [c1 r1] end;
      apply pair_equal_spec in Dc as [<- <-]; eauto. }
  unfold all_writes in *. rewrite flat_map_app. unfold asked1. rewrite Dk.
  destruct G as [(e & -> & ->)|(My & c1 & r1 & Sf & -> & ->)].
  - exists is. cbn [flat_map written_by]. rewrite !app_nil_r. split; [exact W|exact S].
  - destruct (data_step D is (m_conn m) c1 _ o data fin W S (data_call_op _ _ _ _ Dk) My Ld r1 Sf) as (ws' & is' & Wr & W' & S').
    exists is'. cbn [m_conn]. rewrite Wr.
    destruct r1 as [[]|e]; cbn [ret_of flat_map written_by app]; rewrite ?app_nil_r in *; (split; [|exact S']); now rewrite app_assoc.
Qed.

(** Any calls *)
Lemma sends_calls c0 ks : forall m rs, fresh OPEN c0 -> Enc [] (c_exts c0) ->
  (forall k o data fin, In k ks -> data_call k = Some (o, data, fin) -> (lenN data < limit)%N) ->
  do_calls X (start X (parse_body X) c0) ks = (m, rs) ->
  exists is, written (all_writes rs m) is /\ Sends (asked ks rs) (sent_frames is) (m_conn m).
Proof.
  intros m rs F E0. pose proof F as (So & _ & Ec & _ & _ & _ & Ev & Wr & _). revert m rs.
  induction ks as [|k ks IH] using rev_ind; intros m rs Sz D.
  - cbn [do_calls] in D. apply pair_equal_spec in D as [<- <-]. rewrite start_parse_body. exists []. unfold all_writes. cbn [m_conn flat_map app].
    rewrite Wr. split; [constructor|]. exists []. split; [reflexivity|exact E0|reflexivity|constructor|constructor|constructor|].
    exists [], []. split; [apply message_sequence_nil|]. intros _. exact Ec.
  - rewrite do_calls_app in D. destruct (do_calls X (start X (parse_body X) c0) ks) as [m1 rs1] eqn:D1.
    cbn [do_calls] in D. destruct (do_call X m1 k) as [m2 r2] eqn:D2. apply pair_equal_spec in D as [<- <-].
    destruct (IH m1 rs1) as (is & W & S); [intros; eapply Sz; [apply in_or_app; left|]; eassumption|reflexivity|].
    rewrite asked_snoc by exact (returned_length _ _ _ _ _ D1).
    destruct (data_call k) as [[[o data] fin]|] eqn:Dk.
    + apply (data_call_step _ is m1 k m2 r2 o data fin); auto. eapply Sz; [apply in_or_app; right; now left|exact Dk].
    + assert (D2' : do_calls X m1 [k] = (m2, [r2])) by (cbn [do_calls]; now rewrite D2).
      destruct (resume X c0 ks m1 rs1 [k] m2 [r2] Ev Wr D1 D2') as (is1 & l & l' & W1 & W2 & _ & A).
      rewrite (written_unique _ _ _ W1 W) in *. exists (is ++ l). split; [exact W2|].
      unfold asked1. rewrite Dk, app_nil_r. apply (Sends_more _ _ (core (m_conn m2))); [|reflexivity|auto].
      apply (quiet_steps (fun k' => In k' [k]) (asked ks rs1)) in A; [exact A| |].
      * intros k' [<-|[]]. exact Dk.
      * unfold Sinv. cbn [a_is a_c]. apply (Sends_more _ _ (m_conn m1)); [exact S|reflexivity|auto].
Qed.
End Sends.
