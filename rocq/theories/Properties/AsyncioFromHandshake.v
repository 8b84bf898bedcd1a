(* C96: a client and a server of this library, from the opening handshake to the closing handshake (asyncio API). *)
From Verif Require Import Base.Prelude Base.PreludeFacts Model.Streams Model.Frames Model.PermessageDeflate
  Model.LegacyFraming Model.LegacyProtocol Spec.Rfc6455 Spec.FrameSpec Spec.Messages Spec.Deflate Spec.Asyncio Spec.AsyncioKeepalive Spec.AsyncioHang
  Spec.AsyncioCloseCodes Spec.AsyncioFailures Spec.AsyncioHandshake Spec.AsyncioFromHandshake
  Proofs.FramesFacts Proofs.WireUnique Proofs.DeflateFacts Proofs.DeflateRun Proofs.StoredZlib Proofs.DeflateEnds Proofs.DeflatePeer
  Proofs.LegacyShapes Proofs.LegacyFields Proofs.LegacyQueue Proofs.LegacyMessages Proofs.LegacyAuthors
  Proofs.LegacyClose Proofs.LegacyWire Proofs.LegacyRead Proofs.LegacyDeflate Proofs.LegacyGrowth Proofs.LegacyEndToEnd Proofs.LegacyCloseOrigin
  Proofs.LegacyFailures Proofs.LegacyPeer Proofs.LegacyHandshaking
  Properties.FrameCodec Properties.Deflate Properties.AsyncioState Properties.AsyncioMessages Properties.AsyncioCalls
  Properties.AsyncioSends Properties.AsyncioEndToEnd Properties.AsyncioCloseCodes Properties.AsyncioFailures Properties.AsyncioCompressedFailures
  Properties.AsyncioHandshake Properties.AsyncioCompressedHandshake.
Local Open Scope N_scope.

(** Connections on which no extension was negotiated *)
Definition still {E} (e e' : list E) : Prop := e = [] -> e' = [].
Section Unextended.
Context {E : Type} (X : ext_ops E) (cfg : config).
Lemma still_write st w f st' e : write X cfg st w f = (st', e) -> still (p_exts st) (p_exts st').
Proof.
  unfold write. destruct (serialize _ _ _ _ _) as [exts r] eqn:Sr. intros H Q. rewrite Q in Sr.
  assert (exts = []) as ->.
  { unfold serialize in Sr. destruct (check f); cbn [encode_in_order] in Sr; now apply pair_equal_spec in Sr as [<- _]. }
  destruct r; apply pair_equal_spec in H as [<- _]; reflexivity.
Qed.
Lemma still_reads fs gns ws e : Reads X cfg still [] fs gns ws e ->
  e = [] /\ fs = map fst gns /\ Forall2 (framed (negb (c_client cfg))) fs ws.
Proof.
  intros H. induction H as [e Hw|fs gns ws e f g n w e1 e2 H IH Fr De Hw].
  - split; [now apply Hw|]. split; [reflexivity|constructor].
  - destruct IH as (-> & -> & F). cbn [decode_reversed] in De. apply pair_equal_spec in De as [<- De]. apply ok_inj in De. subst f.
    split; [now apply Hw|]. rewrite map_app. split; [reflexivity|]. apply Forall2_app; [exact F|]. repeat constructor. exact Fr.
Qed.
Hypothesis keys : forall n, length (c_key cfg n) = 4%nat.
Definition grew (st st' : conn E) : Prop := p_exts st = [] -> p_exts st' = [] /\ grows cfg st st'.
Lemma grew_trans s1 s2 s3 : grew s1 s2 -> grew s2 s3 -> grew s1 s3.
Proof.
  intros G1 G2 Q. destruct (G1 Q) as (Q2 & n1 & O1 & F1). destruct (G2 Q2) as (Q3 & n2 & O2 & F2). split; [exact Q3|].
  exists (n1 ++ n2). rewrite O2, O1, app_assoc. split; [reflexivity|]. apply Forall_app. now split.
Qed.
Lemma grew_same s1 s2 : p_out s2 = p_out s1 -> p_exts s2 = p_exts s1 -> grew s1 s2.
Proof. intros Q1 Q2 Q. split; [congruence|]. exists []. rewrite app_nil_r. now split. Qed.
Lemma step_grew st l st' : step X cfg st l = Some st' -> grew st st'.
Proof.
  intros St. revert St. apply (LegacyGrowth.step_ow X cfg grew grew_same grew_trans (fun _ => True) (fun _ => True)); auto.
  - intros s1 w f s2 e _ H Q. split; [exact (still_write _ _ _ _ _ H Q)|]. revert H.
    unfold write. destruct (serialize _ _ _ _ _) as [exts r] eqn:Sr. intros H.
    destruct r as [data|]; apply pair_equal_spec in H as [<- _]; [|exists []; rewrite app_nil_r; now split].
    exists [Sent w f data]. split; [reflexivity|]. constructor; [|constructor]. cbn [o_frame o_bytes].
    rewrite Q in Sr. unfold serialize in Sr. destruct (check f); [|discriminate].
    cbn [encode_in_order] in Sr. apply pair_equal_spec in Sr as [_ Hw].
    destruct (wire_layout _ _ _ _ (keys _) Hw) as (ext & L & _).
    exists (key_opt (c_client cfg) (c_key cfg (length (p_out s1)))). split; [now exists ext|].
    pose proof (keys (length (p_out s1))) as Hk. revert Hk. generalize (c_key cfg (length (p_out s1))).
    intros key Hk. destruct key as [|? [|? [|? [|? [|]]]]]; try discriminate Hk. now destruct (c_client cfg).
  - intros s1 c f r ex Rd. unfold reading in Rd. apply legacy_read_done in Rd as (g & w & _ & _ & D). intros Q. rewrite Q in D.
    cbn [decode_reversed] in D. apply pair_equal_spec in D as [<- _].
    split; [reflexivity|]. exists []. cbn [p_out set_in set_reader set_exts]. rewrite app_nil_r. now split.
  - intros s1 c e r ex Rd. unfold reading in Rd. intros Q. rewrite Q in Rd.
    assert (ex = []) as ->.
    { apply legacy_read_fail in Rd as [->|(g & res & D)]; [reflexivity|]. cbn [decode_reversed] in D. now apply pair_equal_spec in D as [<- _]. }
    split; [reflexivity|]. exists []. cbn [p_out set_in set_reader set_exts]. rewrite app_nil_r. now split.
  - intros i a _. split; [destruct a as [| | | | |[]]; exact Logic.I|]. intros pc c _.
    assert (Fa : forall l : list py_data, Forall (fun _ => True) l) by (intros x; induction x; now constructor).
    destruct pc as [[]| | | | |? []| | | | | | | | | | |]; try exact Logic.I; try apply Fa; destruct m; try exact Logic.I; apply Fa.
Qed.
Lemma unextended_framed ls st : exec X cfg (initial []) ls = Some st ->
  Forall2 (framed (c_client cfg)) (map o_frame (p_out st)) (map o_bytes (p_out st)).
Proof.
  intros H. enough (G : p_exts st = [] /\ Forall (fun x => framed (c_client cfg) (o_frame x) (o_bytes x)) (p_out st)).
  { destruct G as [_ G]. induction G; cbn [map]; now constructor. }
  revert H. apply (exec_steps X cfg (fun st => p_exts st = [] /\ Forall (fun x => framed (c_client cfg) (o_frame x) (o_bytes x)) (p_out st))).
  - intros s1 l s2 [Q F] H. destruct (step_grew s1 l s2 H Q) as (Q2 & new & -> & Fn). split; [exact Q2|]. apply Forall_app. now split.
  - split; [reflexivity|constructor].
Qed.
End Unextended.

Section Pair.
Context {E : Type} (X : ext_ops E) (cfgA cfgB : config).
Hypothesis plain : forall exts g, is_ctrl (f_opcode g) = true -> encode_in_order X exts g = (exts, Ok g).
Hypothesis Hc : c_client cfgB = negb (c_client cfgA).
Hypothesis KA : forall n, length (c_key cfgA n) = 4%nat.
Hypothesis KB : forall n, length (c_key cfgB n) = 4%nat.
Lemma still_trans (e e1 e2 : list E) : still e e1 -> still e1 e2 -> still e e2.
Proof. unfold still. auto. Qed.
Lemma unread_unextended lsA stA lsB stB :
  execution X cfgA [] lsA stA -> execution X cfgB [] lsB stB -> in_transit (p_out stA) (incoming lsB) ->
  exists fl rest later wl, flat_map o_bytes (p_out stA) = incoming lsB ++ fl /\ map o_frame (p_out stA) = p_in stB ++ later /\ Forall2 (framed (c_client cfgA)) later wl /\
    concat wl = rest ++ fl /\ (T_done stB = false -> rest = r_buffer (p_reader stB) /\ p_exts stB = []).
Proof.
  intros HA HB (fl & Hb). change (incoming lsB) with (LegacyWire.received lsB) in Hb.
  destruct (WireX_exec X cfgB still (fun e Q => Q) still_trans (still_write X cfgB) [] lsB stB HB) as (gns & ws & unread & e & W1 & W2 & W3).
  apply still_reads in W2 as (-> & _ & W2). rewrite Hc, Bool.negb_involutive in W2.
  destruct (frames_remain (c_client cfgA) (map o_frame (p_out stA)) (map o_bytes (p_out stA)) (p_in stB) ws
     (unread ++ fl)) as (later & wl & Ef & Fl & Cl).
  { exact (unextended_framed X cfgA KA lsA stA HA). }
  { exact W2. }
  { rewrite <- flat_map_concat_map, Hb, W1, <- app_assoc. reflexivity. }
  exists fl, unread, later, wl. split; [exact Hb|]. split; [exact Ef|]. split; [exact Fl|]. split; [exact Cl|].
  intros Q. destruct (W3 Q) as [-> St]. split; [reflexivity|]. now apply St.
Qed.
Lemma found_unextended lsA stA (stB : conn E) c rest done f later :
  execution X cfgA [] lsA stA -> map o_frame (p_out stA) = p_in stB ++ f :: later ->
  data_frames (p_in stB) = concat done ++ rest -> Forall complete_message done -> context cfgB c rest ->
  ~ fits (read_limit cfgB c) (length (f_data f)) -> exists max, c_max_size cfgB = Some max /\ too_big_compressed max (p_out stA).
Proof.
  intros HA Ef D1 D2 D4 Nf. rewrite (context_limit cfgB c rest D4) in Nf. unfold remaining in Nf.
  destruct (c_max_size cfgB) as [max|] eqn:Ms; [|destruct (Nf Logic.I)]. exists max. split; [reflexivity|].
  assert (Sp : exists before x after, p_out stA = before ++ x :: after /\ map o_frame before = p_in stB /\ o_frame x = f).
  { clear - Ef. revert Ef. generalize (p_out stA) as out, (p_in stB) as fs. intros out. induction out as [|y out IH]; intros [|f0 fs] Hl; try discriminate.
    - cbn [map app] in Hl. injection Hl as H1 _. now exists [], y, out.
    - cbn [map app] in Hl. injection Hl as H1 Hl. destruct (IH fs Hl) as (before & x & after & -> & <- & Q).
      exists (y :: before), x, after. cbn [map app]. rewrite H1. now repeat split. }
  destruct Sp as (before & x & after & Ho & Hbf & <-).
  assert (La : exists key, layout (on_wire (o_frame x) key) (o_bytes x)).
  { pose proof (unextended_framed X cfgA KA lsA stA HA) as Fr. rewrite Ho, !map_app in Fr. cbn [map] in Fr.
    clear - Fr. revert Fr. induction before as [|u before IH]; cbn [map app]; intros Fr.
    - inversion Fr as [|? ? ? ? (key & L & _) _]; subst. now exists key.
    - inversion Fr; subst. now apply IH. }
  destruct La as [key La].
  exists before, x, after, done, rest, (o_frame x), key. split; [exact Ho|]. split.
  - rewrite Hbf. split; [exact D1|]. split; [exact D2|exact (context_begun cfgB c rest D4)].
  - split; [exact La|]. unfold fits in Nf. lia.
Qed.
Lemma expected_unextended lsA stA lsB stB (Fails : Z -> Prop) :
  execution X cfgA [] lsA stA -> no_overlap X cfgA [] lsA ->
  execution X cfgB [] lsB stB -> in_transit (p_out stA) (incoming lsB) ->
  (forall max, c_max_size cfgB = Some max -> too_big_compressed max (p_out stA) -> Fails 1009%Z) ->
  expected X cfgB Fails stB.
Proof.
  intros HA N HB Tr Big.
  destruct (Recv_exec X cfgB [] lsB stB HB) as [Bs ((_ & Wp) & _ & (done & rest & D1 & D2 & _ & D4) & _)].
  split; [|split; [exact (CT_closed stB (CT_exec X cfgB [] lsB stB HB))|split; [exact Wp|]]].
  2:{ intros Q. destruct Bs as (_ & L & _). apply L in Q. unfold closed_state. now rewrite Q. }
  intros c HT. rewrite HT in D4. cbn [tail] in D4.
  assert (D2' : Forall complete_message done) by (revert D2; apply Forall_impl; tauto).
  destruct (unread_unextended lsA stA lsB stB HA HB Tr) as (fl & unread & later & wl & _ & Ef & Fl & Cl & W3).
  destruct W3 as [-> Qe]; [unfold T_done; now rewrite HT|].
  pose proof (written_checked X cfgA [] lsA stA HA) as Ck.
  assert (Ck' : Forall (fun f => check f = Ok tt) (p_in stB ++ later)) by (rewrite <- Ef; now apply Forall_map).
  apply Forall_app in Ck' as [_ Ck'].
  assert (Mk : negb (c_client cfgB) = c_client cfgA) by (rewrite Hc; apply Bool.negb_involutive).
  destruct (read_next X (c_client cfgA) (read_limit cfgB c) _ (r_eof (p_reader stB)) fl wl later Fl Cl Ck') as [R1 R2].
  rewrite Mk, Qe. destruct (p_reader stB) as [buf eof]. cbn [r_buffer r_eof] in *.
  split.
  - intros e r ex Run. destruct (R2 e r ex Run) as [->|(f & later' & msg & -> & -> & Nf)]; [now left|right].
    cbn [fail_code]. destruct (found_unextended lsA stA stB c rest done f later' HA Ef D1 D2' D4 Nf) as (max & Ms & Tb). exact (Big max Ms Tb).
  - intros f r ex Run. destruct (R1 f r ex Run) as (later' & ->).
    assert (Hf : In f (map o_frame (p_out stA))) by (rewrite Ef; apply in_or_app; right; now left).
    inversion Ck' as [|? ? Cf _]; subst.
    split; [|split].
    + intros Op e Pc. exfalso. apply in_map_iff in Hf as (x & <- & Hx).
      destruct (C86_origin _ X cfgA [] lsA stA x HA Hx Op) as (code & reason & Q).
      assert (Cl' : close_frame (o_frame x) code reason) by (destruct Q as [Q|Q]; [exact (chosen_close _ _ _ _ Q)|apply Q]).
      apply close_frame_parses in Cl' as [_ Q']. congruence.
    + intros Op st w st' e Wr. exfalso. apply (pong_written X cfgB f st w st' e); auto.
    + intros Dt e Rm. exfalso.
      destruct (sent_messages X cfgA [] lsA stA HA N) as (dA & cur & S1 & S2 & S3 & S4).
      rewrite Ef in S1. unfold data_frames in S1, D1. rewrite filter_app, D1, <- app_assoc in S1. cbn [filter] in S1. rewrite Dt in S1.
      destruct (next_in_message done rest f _ dA cur D2' S2 S3 S4 (context_begun cfgB c rest D4) S1) as (post & Om).
      exact (reads_message cfgB c rest f post e D4 Om Rm).
Qed.
Lemma reads_unextended lsA stA lsB stB :
  execution X cfgA [] lsA stA -> execution X cfgB [] lsB stB -> in_transit (p_out stA) (incoming lsB) -> reads stB stA.
Proof.
  intros HA HB Tr. destruct (unread_unextended lsA stA lsB stB HA HB Tr) as (_ & _ & later & _ & _ & Ef & _). now exists later.
Qed.
(* the closing handshake *)
Lemma harmless_unextended lsA stA lsB stB :
  execution X cfgA [] lsA stA -> no_overlap X cfgA [] lsA -> execution X cfgB [] lsB stB -> in_transit (p_out stA) (incoming lsB) ->
  (forall max, c_max_size cfgB = Some max -> ~ too_big_compressed max (p_out stA)) ->
  r_eof (p_reader stB) = false -> harmless X cfgB stB.
Proof.
  intros HA N HB Tr Big Eo c HT.
  destruct (Recv_exec X cfgB [] lsB stB HB) as [_ (_ & _ & (done & rest & D1 & D2 & _ & D4) & _)].
  rewrite HT in D4. cbn [tail] in D4.
  assert (D2' : Forall complete_message done) by (revert D2; apply Forall_impl; tauto).
  destruct (unread_unextended lsA stA lsB stB HA HB Tr) as (fl & unread & later & wl & _ & Ef & Fl & Cl & W3).
  destruct W3 as [-> Qe]; [unfold T_done; now rewrite HT|].
  pose proof (written_checked X cfgA [] lsA stA HA) as Ck.
  assert (Ck' : Forall (fun f => check f = Ok tt) (p_in stB ++ later)) by (rewrite <- Ef; now apply Forall_map).
  apply Forall_app in Ck' as [_ Ck'].
  assert (Mk : negb (c_client cfgB) = c_client cfgA) by (rewrite Hc; apply Bool.negb_involutive).
  destruct (read_next X (c_client cfgA) (read_limit cfgB c) _ false fl wl later Fl Cl Ck') as [R1 _].
  destruct (read_flowing X (c_client cfgA) (read_limit cfgB c) _ fl wl later Fl Cl Ck') as [R2 _].
  rewrite Mk, Qe. destruct (p_reader stB) as [buf eof]. cbn [r_buffer r_eof] in *. subst eof.
  split.
  - intros e r ex Run. destruct (R2 e r ex Run) as (f & later' & -> & Nf).
    destruct (found_unextended lsA stA stB c rest done f later' HA Ef D1 D2' D4 Nf) as (max & Ms & Tb). exact (Big max Ms Tb).
  - intros f r ex Run. destruct (R1 f r ex Run) as (later' & ->).
    assert (Hf : In f (map o_frame (p_out stA))) by (rewrite Ef; apply in_or_app; right; now left).
    inversion Ck' as [|? ? Cf _]; subst.
    split; [|split].
    + intros Op. split; [apply ctrl_short; [now rewrite Op|exact Cf]|]. apply in_map_iff in Hf as (x & <- & Hx).
      exact (close_parses X [] cfgA lsA stA x HA Hx Op).
    + intros Op. apply ctrl_short; [now rewrite Op|exact Cf].
    + intros Dt e Rm.
      destruct (sent_messages X cfgA [] lsA stA HA N) as (dA & cur & S1 & S2 & S3 & S4).
      rewrite Ef in S1. unfold data_frames in S1, D1. rewrite filter_app, D1, <- app_assoc in S1. cbn [filter] in S1. rewrite Dt in S1.
      destruct (next_in_message done rest f _ dA cur D2' S2 S3 S4 (context_begun cfgB c rest D4) S1) as (post & Om).
      exact (reads_message cfgB c rest f post e D4 Om Rm).
Qed.
Lemma all_unextended lsA stA lsB stB c g r ex :
  execution X cfgA [] lsA stA -> execution X cfgB [] lsB stB -> flat_map o_bytes (p_out stA) = incoming lsB ->
  p_T stB = TRead c -> r_eof (p_reader stB) = false ->
  run (legacy_read X (negb (c_client cfgB)) (read_limit cfgB c)) (p_reader stB) (p_exts stB) = OSusp g r ex ->
  map o_frame (p_out stA) = p_in stB.
Proof.
  intros HA HB Del HT Eo Run.
  destruct (unread_unextended lsA stA lsB stB HA HB) as (fl & unread & later & wl & Hfl & Ef & Fl & Cl & W3).
  { exists []. now rewrite app_nil_r. }
  assert (fl = []) as ->.
  { rewrite Del in Hfl. rewrite <- (app_nil_r (incoming lsB)) in Hfl at 1. now apply app_inv_head in Hfl. }
  destruct W3 as [-> Qe]; [unfold T_done; now rewrite HT|].
  pose proof (written_checked X cfgA [] lsA stA HA) as Ck.
  assert (Ck' : Forall (fun f => check f = Ok tt) (p_in stB ++ later)) by (rewrite <- Ef; now apply Forall_map).
  apply Forall_app in Ck' as [_ Ck'].
  assert (Mk : negb (c_client cfgB) = c_client cfgA) by (rewrite Hc; apply Bool.negb_involutive).
  destruct (read_flowing X (c_client cfgA) (read_limit cfgB c) _ [] wl later Fl Cl Ck') as [_ R].
  rewrite Mk, Qe in Run. destruct (p_reader stB) as [buf eof]. cbn [r_buffer r_eof] in *. subst eof.
  specialize (R g r ex eq_refl Run). subst later. now rewrite app_nil_r in Ef.
Qed.
Hypothesis AC : accepts_control X.
Hypothesis Timeout : exists t, c_close_timeout cfgB = Some t /\ 0 < t.
Lemma received_close_unextended lsA stA lsB stB : connected X cfgA [] cfgB [] lsA stA lsB stB ->
  no_overlap X cfgA [] lsA -> no_overlap X cfgB [] lsB -> undisturbed X cfgB [] lsB -> Forall short_reason lsB ->
  (forall max, c_max_size cfgB = Some max -> ~ too_big_compressed max (p_out stA)) ->
  flat_map o_bytes (p_out stA) = incoming lsB -> reading_idle X cfgB stB -> ~ last_is_ping stB -> ~ queue_full cfgB stB ->
  wrote_close stA -> wrote_close stB /\ finished stB /\ close_received stA stB.
Proof.
  apply (received_close X [] [] AC cfgA cfgB KB (no_overlap X cfgA [])
    (fun out => forall max, c_max_size cfgB = Some max -> ~ too_big_compressed max out)); [| | | | |exact Timeout].
  - intros ls l. apply no_overlap_prefix.
  - intros l l' Big max Ms Tb. apply (Big max Ms). now apply too_big_compressed_more.
  - intros a sa b_ sb HA _ HB T. exact (reads_unextended a sa b_ sb HA HB T).
  - intros a sa b_ sb HA N HB T. now apply (harmless_unextended a sa b_ sb).
  - intros a sa b_ sb c g r ex HA _. now apply (all_unextended a sa b_ sb c g r ex).
Qed.
End Pair.

From Verif Require Import Spec.Negotiated.
Lemma pair_understands zl sync cfgA cfgB (extsA extsB : list (pmd zl)) :
  correct_zlib zl sync -> truncates zl sync -> expands_little zl -> can_decompress zl ->
  c_client cfgB = negb (c_client cfgA) ->
  (forall n, length (c_key cfgA n) = 4%nat) -> (forall n, length (c_key cfgB n) = 4%nat) ->
  compress_alike extsA extsB -> understands cfgA extsA cfgB extsB.
Proof.
  intros Zc Tr Ex Cd Hc KA KB Al lsA stA lsB stB C NA SA NB SB.
  assert (Hc' : c_client cfgA = negb (c_client cfgB)) by now rewrite Hc, Bool.negb_involutive.
  destruct (connected_runs _ _ _ _ _ _ _ _ _ _ C) as (HA & HB & TA & TB).
  destruct Al as [(-> & ->)|(p & q & -> & -> & (rn & ln & rb & lb & sa & Hp & Ca) & (rn' & ln' & rb' & lb' & sb & Hq & Cb) & Mi)].
  - split; [|split].
    + apply (frames_deliver (pmd_ops zl) cfgA [] lsA stA (pmd_ops zl) cfgB [] lsB stB HA NA HB).
      exact (reads_unextended (pmd_ops zl) cfgA cfgB Hc KA lsA stA lsB stB HA HB TA).
    + apply (closed_code (pmd_ops zl) cfgA [] cfgB [] (fun _ _ => True)); auto.
      intros a sa_ b_ sb_ C' _. destruct (connected_runs _ _ _ _ _ _ _ _ _ _ C') as (HA' & HB' & TA' & TB').
      split; [exact (reads_unextended (pmd_ops zl) cfgB cfgA Hc' KB b_ sb_ a sa_ HB' HA' TB')|
              exact (reads_unextended (pmd_ops zl) cfgA cfgB Hc KA a sa_ b_ sb_ HA' HB' TA')].
    + intros y code reason Hy By Cf.
      destruct (failures_justified (pmd_ops zl) cfgA [] cfgB [] (no_overlap (pmd_ops zl) cfgA []) (fun out max => too_big_compressed max out))
        with (lsA := lsA) (stA := stA) (lsB := lsB) (stB := stB) (y := y) as (code' & J & Sc);
        [| | |exact C|exact NA|exact Hy|exact By|exact (proj1 Cf)|].
      { exact (no_overlap_prefix (pmd_ops zl) cfgA []). }
      { intros max l l'. apply too_big_compressed_more. }
      { intros a sa_ b_ sb_ Fails HA' O HB' T Big.
        exact (expected_unextended (pmd_ops zl) cfgA cfgB (fun exts => pmd_plain exts) Hc KA KB a sa_ b_ sb_ Fails HA' O HB' T Big). }
      apply (serialized_close _ _ _ (proj1 Cf)) in Sc. destruct (same_close _ _ _ _ _ _ Cf Sc eq_refl) as [-> ->]. now split.
  - pose proof (truncates_reports _ _ Tr) as Rl. split; [|split].
    + exact (C75_compressed_partial zl sync rn ln rb lb sa rn' ln' rb' lb' sb p q cfgA lsA stA cfgB lsB stB Zc Rl Ex Ca Cd Hp Hq Mi Hc KA HA NA SA HB TA).
    + exact (proj1 (C86_compressed_partial zl sync rn ln rb lb sa rn' ln' rb' lb' sb p q cfgA cfgB lsA stA lsB stB
        Zc Rl Ex Ca Cb Cd Hp Hq Mi Hc KA KB NA SA NB SB C)).
    + exact (C87_compressed_partial zl sync rn ln rb lb sa rn' ln' rb' lb' sb p q cfgA cfgB lsA stA lsB stB
        Zc Tr Ex Ca Cd Hp Hq Mi Hc KA KB C NA SA).
Qed.

Lemma pair_completes zl sync cfgA cfgB (extsA extsB : list (pmd zl)) :
  correct_zlib zl sync -> truncates zl sync -> expands_little zl -> can_decompress zl ->
  c_client cfgB = negb (c_client cfgA) -> compress_alike extsA extsB -> completes cfgA extsA cfgB extsB.
Proof.
  intros Zc Tr Ex Cd Hc Al lsA stA lsB stB C RgA RgB DA DB IA IB FA FB PA PB W.
  destruct Al as [(-> & ->)|(p & q & -> & -> & (rn & ln & rb & lb & sa & Hp & Ca) & (rn' & ln' & rb' & lb' & sb & Hq & Cb) & Mi)].
  - destruct RgA as (KA & TA & NA & _ & UA & SA & BA). destruct RgB as (KB & TB & NB & _ & UB & SB & BB).
    assert (Hc' : c_client cfgA = negb (c_client cfgB)) by now rewrite Hc, Bool.negb_involutive.
    pose proof (C86_symmetric _ _ _ _ _ _ _ _ _ _ C) as C'.
    pose proof (received_close_unextended (pmd_ops zl) cfgA cfgB Hc KA KB (pmd_control zl) TB lsA stA lsB stB C NA NB UB SB BB DA IB PB FB) as RB.
    pose proof (received_close_unextended (pmd_ops zl) cfgB cfgA Hc' KB KA (pmd_control zl) TA lsB stB lsA stA C' NB NA UA SA BA DB IA PA FA) as RA.
    assert (WB : wrote_close stB) by (destruct W as [W|W]; [apply RB, W|exact W]).
    destruct (RA WB) as (WA & FnA & RA'). destruct (RB WA) as (_ & FnB & RB').
    split; [exact FnA|]. split; [exact FnB|]. split; assumption.
  - exact (C88_compressed_partial zl sync rn ln rb lb sa rn' ln' rb' lb' sb p q cfgA cfgB lsA stA lsB stB Zc Tr Ex Ca Cb Cd Hp Hq Mi Hc C
      RgA RgB DA DB IA IB FA FB PA PB W).
Qed.
