(* Two endpoints of this library which compress don't fail each other with a protocol error (C87). *)
From Verif Require Import Base.Prelude Base.PreludeFacts Model.Streams Model.Frames Model.PermessageDeflate
  Model.LegacyFraming Model.LegacyProtocol Spec.Rfc6455 Spec.FrameSpec Spec.Messages Spec.Deflate Spec.Asyncio
  Spec.AsyncioCloseCodes Spec.AsyncioFailures
  Proofs.FramesFacts Proofs.WireUnique Proofs.DeflateFacts Proofs.DeflateRun Proofs.StoredZlib Proofs.DeflateEnds Proofs.DeflatePeer
  Proofs.LegacyShapes Proofs.LegacyFields Proofs.LegacyQueue Proofs.LegacyMessages Proofs.LegacyAuthors
  Proofs.LegacyClose Proofs.LegacyWire Proofs.LegacyRead Proofs.LegacyDeflate Proofs.LegacyGrowth Proofs.LegacyEndToEnd Proofs.LegacyCloseOrigin
  Proofs.LegacyFailures Proofs.LegacyPeer
  Properties.FrameCodec Properties.Deflate Properties.AsyncioState Properties.AsyncioMessages Properties.AsyncioCalls
  Properties.AsyncioSends Properties.AsyncioEndToEnd Properties.AsyncioCloseCodes Properties.AsyncioFailures.
Local Open Scope N_scope.

(* ---- C87 ---- *)

Lemma too_big_compressed_more max l l' : too_big_compressed max l -> too_big_compressed max (l ++ l').
Proof.
  intros (before & x & later & done & rest & g & key & -> & Q). exists before, x, (later ++ l'), done, rest, g, key.
  split; [now rewrite <- app_assoc|exact Q].
Qed.

Section Pair.
Context {zl : zlib} (sync : z_comp zl -> z_decomp zl -> Prop).
Context (Zc : correct_zlib zl sync) (Tr : truncates zl sync) (Ex : expands_little zl).
Context (cfgA cfgB : config).
Hypothesis Hc : c_client cfgB = negb (c_client cfgA).
Hypothesis KA : forall n, length (c_key cfgA n) = 4%nat.
Hypothesis KB : forall n, length (c_key cfgB n) = 4%nat.
(* What remains to be read *)
Lemma remaining_compressed (p q : pmd zl) rn ln rb lb sa rn' ln' rb' lb' sb lsA (stA : conn (pmd zl)) lsB stB fl :
  can_compress zl lb sa -> can_decompress zl ->
  pmd_init rn ln rb lb sa = Ok p -> pmd_init rn' ln' rb' lb' sb = Ok q -> mirrored p q ->
  execution (pmd_ops zl) cfgA [p] lsA stA -> no_overlap (pmd_ops zl) cfgA [p] lsA -> Forall small_label lsA ->
  execution (pmd_ops zl) cfgB [q] lsB stB -> flat_map o_bytes (p_out stA) = incoming lsB ++ fl ->
  exists l', map o_frame (p_out stA) = p_in stB ++ l' /\
    (T_done stB = false ->
     exists read later wl in_msg p2 q2, p_exts stB = [q2] /\ linked sync in_msg p2 q2 /\ legal in_msg l' /\
       Forall (fun f => f_rsv1 f = false) l' /\ Forall (fun f => check f = Ok tt) l' /\ encodes p2 l' = map Ok later /\
       Forall2 (framed (c_client cfgA)) later wl /\ concat wl = r_buffer (p_reader stB) ++ fl /\
       length read = length (p_in stB) /\ Forall2 (framed (c_client cfgA)) (read ++ later) (map o_bytes (p_out stA))).
Proof.
  intros Cc Cd Hp Hq Mi HA N Sm HB Hb. change (incoming lsB) with (LegacyWire.received lsB) in Hb.
  pose proof (init_linked sync Zc _ _ _ _ _ _ _ _ _ _ _ _ Hp Hq Mi Cc Cd) as Lk.
  destruct (wrote_exec Ex cfgA KA [p] lsA stA Sm HA p eq_refl (lk_comp _ _ _ _ Lk)) as (p' & new & gs & _ & _ & Ho & En & _ & Fr & Rs).
  cbn [p_out initial app] in Ho. subst new.
  destruct (WireX_exec (pmd_ops zl) cfgB wrd wrd_refl wrd_trans (wrd_write cfgB) [q] lsB stB HB) as (gns & ws & unread & e & W1 & W2 & W3).
  destruct (frames_remain (c_client cfgA) gs (map o_bytes (p_out stA)) (map fst gns) ws
     (unread ++ fl)) as (later & wl & Ef & Fl & Cl).
  { exact Fr. }
  { pose proof (reads_framed _ _ _ _ _ _ W2) as Rf. now rewrite Hc, Bool.negb_involutive in Rf. }
  { rewrite <- flat_map_concat_map, Hb, W1, <- app_assoc. reflexivity. }
  destruct (sent_messages (pmd_ops zl) cfgA [p] lsA stA HA N) as (dA & cur & S1 & S2 & S3 & S4).
  assert (Le : legal false (map o_frame (p_out stA))).
  { apply legal_messages. exists dA, cur. split; [exact S1|]. split; [exact S2|]. tauto. }
  assert (Rs' : Forall (fun f => f_rsv1 f = false) (map o_frame (p_out stA))).
  { apply Forall_map. revert Rs. apply Forall_impl. intros x H. apply H. }
  destruct (reads_prefix sync Zc (truncates_reports _ _ Tr) cfgB p q _ gs Lk Le Rs' En _ _ _ _ W2 (ex_intro _ later Ef))
    as (l' & b_ & q1 & Hl & Ln & He & Lk1 & Le1).
  exists l'. split; [exact Hl|]. intros Td. destruct (W3 Td) as [-> W4].
  destruct (W4 q1 He) as (q2 & Hq2 & Sq). pose proof (linked_same sync _ _ _ _ _ Lk1 (same_enc_refl _) Sq) as Lk2.
  assert (En2 : encodes (enc_end p (p_in stB)) l' = map Ok later).
  { rewrite Hl, encodes_app, Ef, map_app in En.
    assert (Hlen : length (encodes p (p_in stB)) = length (map (@Ok frame) (map fst gns))).
    { rewrite !map_length, Ln. clear. generalize (p_in stB) as fs. intros fs. revert p. induction fs; intros p; cbn; auto. }
    revert En. generalize (encodes (enc_end p (p_in stB)) l') (encodes p (p_in stB)) (map (@Ok frame) (map fst gns)) Hlen. clear.
    intros x a. revert x. induction a as [|y a IH]; intros x [|z b] Hl E; try discriminate; [exact E|].
    cbn [app] in E. injection E as _ E. apply (IH _ b); [cbn in Hl; lia|exact E]. }
  pose proof (written_checked (pmd_ops zl) cfgA [p] lsA stA HA) as Ck.
  assert (Ck' : Forall (fun f => check f = Ok tt) (p_in stB ++ l')) by (rewrite <- Hl; now apply Forall_map).
  apply Forall_app in Ck' as [_ Ck']. rewrite Hl in Rs'. apply Forall_app in Rs' as [_ Rs'].
  exists (map fst gns), later, wl, b_, (enc_end p (p_in stB)), q2. split; [exact Hq2|]. split; [exact Lk2|]. split; [exact Le1|].
  split; [exact Rs'|]. split; [exact Ck'|]. split; [exact En2|]. split; [exact Fl|]. split; [exact Cl|].
  split; [now rewrite map_length, Ln|]. rewrite <- Ef. exact Fr.
Qed.
(* a frame that is too big *)
Lemma found_too_big cfg (stA stB : conn (pmd zl)) c rest done read f l1 g gs1 :
  map o_frame (p_out stA) = p_in stB ++ f :: l1 ->
  data_frames (p_in stB) = concat done ++ rest -> Forall complete_message done -> context cfg c rest ->
  length read = length (p_in stB) -> Forall2 (framed (c_client cfgA)) (read ++ g :: gs1) (map o_bytes (p_out stA)) ->
  ~ fits (read_limit cfg c) (length (f_data f)) \/ ~ fits (read_limit cfg c) (length (f_data g)) ->
  exists max, c_max_size cfg = Some max /\ too_big_compressed max (p_out stA).
Proof.
  intros Hl D1 D2 D4 Ln Fr Nf. rewrite (context_limit cfg c rest D4) in Nf. unfold remaining in Nf.
  destruct (c_max_size cfg) as [max|] eqn:Ms; [|destruct Nf as [Nf|Nf]; destruct (Nf Logic.I)]. exists max. split; [reflexivity|].
  assert (Sp : exists before x after, p_out stA = before ++ x :: after /\ map o_frame before = p_in stB /\ o_frame x = f).
  { clear - Hl. revert Hl. generalize (p_out stA) as out, (p_in stB) as fs. intros out. induction out as [|y out IH]; intros [|f0 fs] Hl; try discriminate.
    - cbn [map app] in Hl. injection Hl as H1 _. now exists [], y, out.
    - cbn [map app] in Hl. injection Hl as H1 Hl. destruct (IH fs Hl) as (before & x & after & -> & <- & Q).
      exists (y :: before), x, after. cbn [map app]. rewrite H1. now repeat split. }
  destruct Sp as (before & x & after & Ho & Hbf & <-).
  assert (La : exists key, layout (on_wire g key) (o_bytes x)).
  { rewrite Ho, map_app in Fr. cbn [map] in Fr.
    assert (Hn : length read = length (map o_bytes before)) by now rewrite map_length, Ln, <- Hbf, map_length.
    clear - Fr Hn. revert Fr Hn. generalize (map o_bytes before). induction read as [|u l1 IH]; intros [|v l2] Fr Hn; try discriminate.
    - cbn [app] in Fr. inversion Fr as [|? ? ? ? (key & L & _) _]; subst. now exists key.
    - cbn [app] in Fr. inversion Fr; subst. apply (IH l2); [assumption|]. cbn in Hn. lia. }
  destruct La as [key La].
  exists before, x, after, done, rest, g, key. split; [exact Ho|]. split.
  - rewrite Hbf. split; [exact D1|]. split; [exact D2|exact (context_begun cfg c rest D4)].
  - split; [exact La|]. unfold fits in Nf. lia.
Qed.
Lemma expected_compressed (p q : pmd zl) rn ln rb lb sa rn' ln' rb' lb' sb lsA stA lsB stB (Fails : Z -> Prop) :
  can_compress zl lb sa -> can_decompress zl ->
  pmd_init rn ln rb lb sa = Ok p -> pmd_init rn' ln' rb' lb' sb = Ok q -> mirrored p q ->
  execution (pmd_ops zl) cfgA [p] lsA stA -> no_overlap (pmd_ops zl) cfgA [p] lsA -> Forall small_label lsA ->
  execution (pmd_ops zl) cfgB [q] lsB stB -> in_transit (p_out stA) (incoming lsB) ->
  (forall max, c_max_size cfgB = Some max -> too_big_compressed max (p_out stA) -> Fails 1009%Z) ->
  expected (pmd_ops zl) cfgB Fails stB.
Proof.
  intros Cc Cd Hp Hq Mi HA N Sm HB (fl & Hb) Big.
  destruct (Recv_exec (pmd_ops zl) cfgB [q] lsB stB HB) as [Bs ((_ & Wp) & _ & (done & rest & D1 & D2 & _ & D4) & _)].
  split; [|split; [exact (CT_closed stB (CT_exec (pmd_ops zl) cfgB [q] lsB stB HB))|split; [exact Wp|]]].
  2:{ intros Q. destruct Bs as (_ & L & _). apply L in Q. unfold closed_state. now rewrite Q. }
  intros c HT. rewrite HT in D4. cbn [tail] in D4.
  assert (D2' : Forall complete_message done) by (revert D2; apply Forall_impl; tauto).
  destruct (remaining_compressed p q _ _ _ _ _ _ _ _ _ _ lsA stA lsB stB fl Cc Cd Hp Hq Mi HA N Sm HB Hb) as (l' & Hl & Rm).
  destruct Rm as (read & later & wl & b_ & p2 & q2 & Hq2 & Lk2 & Le1 & Rs' & Ck' & En2 & Fl & Cl & Ln & Fr); [unfold T_done; now rewrite HT|].
  assert (Mk : negb (c_client cfgB) = c_client cfgA) by (rewrite Hc; apply Bool.negb_involutive).
  destruct (read_next_compressed sync Zc Tr b_ p2 q2 (c_client cfgA) (read_limit cfgB c) _ (r_eof (p_reader stB)) fl wl l' later
    Lk2 Le1 Rs' Ck' En2 Fl Cl) as [R1 R2].
  rewrite Mk, Hq2. destruct (p_reader stB) as [buf eof]. cbn [r_buffer r_eof] in *.
  split.
  - intros e0 r ex Run. destruct (R2 e0 r ex Run) as [->|(f & l1 & g & gs1 & msg & -> & -> & -> & Nf)]; [now left|right].
    cbn [fail_code]. destruct (found_too_big cfgB stA stB c rest done read f l1 g gs1 Hl D1 D2' D4 Ln Fr Nf) as (max & Ms & Tb). exact (Big max Ms Tb).
  - intros f r ex Run. destruct (R1 f r ex Run) as (l1 & ->).
    assert (Hf : In f (map o_frame (p_out stA))) by (rewrite Hl; apply in_or_app; right; now left).
    inversion Ck' as [|? ? Cf _]; subst.
    split; [|split].
    + intros Op e1 Pc. exfalso. apply in_map_iff in Hf as (x & <- & Hx).
      destruct (C86_origin _ (pmd_ops zl) cfgA [p] lsA stA x HA Hx Op) as (code & reason & Q).
      assert (Cl' : close_frame (o_frame x) code reason) by (destruct Q as [Q|Q]; [exact (chosen_close _ _ _ _ Q)|apply Q]).
      apply close_frame_parses in Cl' as [_ Q']. congruence.
    + intros Op st w st' e1 Wr. exfalso. apply (pong_written (pmd_ops zl) cfgB f st w st' e1); auto. apply pmd_plain.
    + intros Dt e1 Rm. exfalso.
      destruct (sent_messages (pmd_ops zl) cfgA [p] lsA stA HA N) as (dA & cur & S1 & S2 & S3 & S4).
      rewrite Hl in S1. unfold data_frames in S1, D1. rewrite filter_app, D1, <- app_assoc in S1. cbn [filter] in S1. rewrite Dt in S1.
      destruct (next_in_message done rest f _ dA cur D2' S2 S3 S4 (context_begun cfgB c rest D4) S1) as (post & Om).
      exact (reads_message cfgB c rest f post e1 D4 Om Rm).
Qed.
End Pair.

(* With permessage-deflate, for any zlib which does what the documentation says: when the fragmented messages
   sent by A don't overlap (C60) and its messages are small enough (2^56 characters or bytes), B doesn't fail
   the connection because of what it receives, except when it receives a message larger than its limit, before
   or after compression. *)
Theorem C87_compressed_partial :
  forall zl sync rn ln rb lb sa rn' ln' rb' lb' sb (p q : pmd zl) cfgA cfgB lsA stA lsB stB,
    correct_zlib zl sync -> truncates zl sync -> expands_little zl -> can_compress zl lb sa -> can_decompress zl ->
    pmd_init rn ln rb lb sa = Ok p -> pmd_init rn' ln' rb' lb' sb = Ok q -> mirrored p q ->
    c_client cfgB = negb (c_client cfgA) ->
    (forall n, length (c_key cfgA n) = 4%nat) -> (forall n, length (c_key cfgB n) = 4%nat) ->
    connected (pmd_ops zl) cfgA [p] cfgB [q] lsA stA lsB stB ->
    no_overlap (pmd_ops zl) cfgA [p] lsA -> Forall small_label lsA ->
    forall y code reason, In y (p_out stB) -> o_by y = ByFailure -> close_frame (o_frame y) code reason ->
      reason = [] /\ justified (pmd_ops zl) cfgB [q] lsB (fun max => too_big_compressed max (p_out stA)) code.
Proof.
  intros zl sync rn ln rb lb sa rn' ln' rb' lb' sb p q cfgA cfgB lsA stA lsB stB Zc Tr Ex Cc Cd Hp Hq Mi Hc KA KB C N Sm y code reason Hy By Cf.
  destruct (failures_justified (pmd_ops zl) cfgA [p] cfgB [q] (fun ls => no_overlap (pmd_ops zl) cfgA [p] ls /\ Forall small_label ls)
      (fun out max => too_big_compressed max out))
    with (lsA := lsA) (stA := stA) (lsB := lsB) (stB := stB) (y := y) as (code' & J & Sc);
    [| | |exact C|exact (conj N Sm)|exact Hy|exact By|exact (proj1 Cf)|].
  { intros ls l [O1 O2]. split; [exact (no_overlap_prefix _ _ _ _ _ O1)|now apply Forall_app in O2]. }
  { intros max l l'. apply too_big_compressed_more. }
  { intros a sa_ b_ sb_ Fails HA [O1 O2] HB T Big.
    exact (expected_compressed sync Zc Tr Ex cfgA cfgB Hc KA KB p q _ _ _ _ _ _ _ _ _ _ a sa_ b_ sb_ Fails Cc Cd Hp Hq Mi HA O1 O2 HB T Big). }
  apply (serialized_close _ _ _ (proj1 Cf)) in Sc. destruct (same_close _ _ _ _ _ _ Cf Sc eq_refl) as [-> ->]. now split.
Qed.

(* In particular, the close code can't be 1002 (protocol error) or 1007 (invalid data), unless it was given
   to close(). *)
Theorem C87_compressed_close_code_partial :
  forall zl sync rn ln rb lb sa rn' ln' rb' lb' sb (p q : pmd zl) cfgA cfgB lsA stA lsB stB code reason,
    correct_zlib zl sync -> truncates zl sync -> expands_little zl ->
    can_compress zl lb sa -> can_compress zl lb' sb -> can_decompress zl ->
    pmd_init rn ln rb lb sa = Ok p -> pmd_init rn' ln' rb' lb' sb = Ok q -> mirrored p q ->
    c_client cfgB = negb (c_client cfgA) ->
    (forall n, length (c_key cfgA n) = 4%nat) -> (forall n, length (c_key cfgB n) = 4%nat) ->
    connected (pmd_ops zl) cfgA [p] cfgB [q] lsA stA lsB stB ->
    no_overlap (pmd_ops zl) cfgA [p] lsA -> Forall small_label lsA ->
    no_overlap (pmd_ops zl) cfgB [q] lsB -> Forall small_label lsB ->
    p_state stB = Closed -> p_close stB = Some (code, reason) -> code = 1002%Z \/ code = 1007%Z ->
    gives lsA code \/ gives lsB code.
Proof.
  intros zl sync rn ln rb lb sa rn' ln' rb' lb' sb p q cfgA cfgB lsA stA lsB stB code reason
    Zc Tr Ex Ca Cb Cd Hp Hq Mi Hc KA KB C NA SA NB SB Hs Hk Co.
  destruct (proj1 (C86_compressed_partial zl sync rn ln rb lb sa rn' ln' rb' lb' sb p q cfgA cfgB lsA stA lsB stB
    Zc (truncates_reports _ _ Tr) Ex Ca Cb Cd Hp Hq Mi Hc KA KB NA SA NB SB C) Hs) as (c & r & Q & Fp).
  rewrite Hk in Q. injection Q as <- <-.
  assert (Hc' : c_client cfgA = negb (c_client cfgB)) by now rewrite Hc, Bool.negb_involutive.
  assert (Mi' : mirrored q p) by (destruct Mi as (M1 & M2 & M3 & M4); repeat split; congruence).
  assert (G : forall cfg exts ls w, justified (pmd_ops zl) cfg exts ls w code -> gives ls code).
  { intros cfg exts ls w [[-> _]|[Q|[-> _]]]; [destruct Co; discriminate|now right|destruct Co; discriminate]. }
  assert (GA : forall x, In x (p_out stA) -> chosen lsA x code reason -> gives lsA code).
  { intros x Hx [(_ & i & _ & Q)|(Cf & By & _)]; [left; eauto|].
    eapply G.
    exact (proj2 (C87_compressed_partial zl sync rn' ln' rb' lb' sb rn ln rb lb sa q p cfgB cfgA lsB stB lsA stA
      Zc Tr Ex Cb Cd Hq Hp Mi' Hc' KB KA (C86_symmetric _ _ _ _ _ _ _ _ _ _ C) NB SB x code reason Hx By Cf)). }
  assert (GB : forall x, In x (p_out stB) -> chosen lsB x code reason -> gives lsB code).
  { intros x Hx [(_ & i & _ & Q)|(Cf & By & _)]; [left; eauto|].
    eapply G.
    exact (proj2 (C87_compressed_partial zl sync rn ln rb lb sa rn' ln' rb' lb' sb p q cfgA cfgB lsA stA lsB stB
      Zc Tr Ex Ca Cd Hp Hq Mi Hc KA KB C NA SA x code reason Hx By Cf)). }
  destruct Fp as [(-> & _)|(before & x & Ex' & [Ch|(_ & _ & before' & y & Ey & Ch)])].
  - destruct Co; discriminate.
  - left. apply (GA x); [rewrite Ex'; apply in_or_app; right; now left|exact Ch].
  - right. apply (GB y); [rewrite Ey; apply in_or_app; right; now left|exact Ch].
Qed.

(* A client which compresses sends "a", then a message of 101 bytes to a server whose limit is 100 bytes. *)
Definition ex_failed_with {E} (code : Z) (st : conn E) : bool :=
  existsb (fun y => match o_by y, f_opcode (o_frame y), parse_close (f_data (o_frame y)) with
                    | ByFailure, CLOSE, Ok (c, _) => (c =? code)%Z | _, _, _ => false end) (p_out st).
Definition ex_wire_compressed (ls : list label) : bytes :=
  match exec (pmd_ops stored_zlib) ex_config (initial [ex_client_pmd]) ls with Some st => flat_map o_bytes (p_out st) | None => [] end.
Definition ex_fails_compressed : list (bool * label) :=
  map (pair true) ex_sending ++
  map (pair false) [LOpen; LC Go; LData (ex_wire_compressed ex_sending); LT Go; LT Go].
Example C87_compressed_applies :
  pmd_init (zl := stored_zlib) true false 15 12 None = Ok ex_client_pmd /\
  pmd_init (zl := stored_zlib) false true 12 15 None = Ok ex_server_pmd /\ mirrored ex_client_pmd ex_server_pmd /\
  correct_zlib stored_zlib stored_sync /\ truncates stored_zlib stored_sync /\ expands_little stored_zlib /\
  can_compress stored_zlib 12 None /\ can_decompress stored_zlib /\
  (exists stA stB, connected (pmd_ops stored_zlib) ex_config [ex_client_pmd] ex_server [ex_server_pmd]
      (side true ex_fails_compressed) stA (side false ex_fails_compressed) stB /\
    ex_failed_with 1009 stB = true) /\
  no_overlap (pmd_ops stored_zlib) ex_config [ex_client_pmd] (side true ex_fails_compressed) /\
  Forall small_label (side true ex_fails_compressed).
Proof.
  split; [vm_compute; reflexivity|]. split; [vm_compute; reflexivity|]. split; [vm_compute; repeat split; discriminate|].
  split; [exact stored_correct|]. split; [exact stored_truncates|]. split; [exact stored_expands|].
  split; [apply stored_can_compress; lia|]. split; [exact stored_can_decompress|].
  split; [apply (by_connection _ _ _ _ _ _ ex_fails_compressed (fun _ st => ex_failed_with 1009 st)); vm_compute; reflexivity|].
  split; [apply no_overlap_check; vm_compute; reflexivity|].
  repeat constructor.
Qed.

Print Assumptions C87_compressed_partial.
Print Assumptions C87_compressed_close_code_partial.
