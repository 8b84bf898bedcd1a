(* The closing handshake between two endpoints of this library which compress completes (C88). *)
From Verif Require Import Base.Prelude Base.PreludeFacts Model.Streams Model.Frames Model.PermessageDeflate
  Model.LegacyFraming Model.LegacyProtocol Spec.Rfc6455 Spec.FrameSpec Spec.Messages Spec.Deflate Spec.Asyncio Spec.AsyncioKeepalive Spec.AsyncioHang
  Spec.AsyncioCloseCodes Spec.AsyncioFailures Spec.AsyncioHandshake Spec.AsyncioFromHandshake
  Proofs.FramesFacts Proofs.WireUnique Proofs.DeflateFacts Proofs.DeflateRun Proofs.StoredZlib Proofs.DeflateEnds Proofs.DeflatePeer
  Proofs.LegacyShapes Proofs.LegacyFields Proofs.LegacyQueue Proofs.LegacyMessages Proofs.LegacyAuthors
  Proofs.LegacyClose Proofs.LegacyRecv Proofs.LegacyWire Proofs.LegacyRead Proofs.LegacyDeflate Proofs.LegacyGrowth Proofs.LegacyEndToEnd
  Proofs.LegacyCloseOrigin Proofs.LegacyFailures Proofs.LegacyPeer Proofs.LegacyHandshaking
  Properties.FrameCodec Properties.Deflate Properties.AsyncioState Properties.AsyncioMessages Properties.AsyncioCalls
  Properties.AsyncioSends Properties.AsyncioEndToEnd Properties.AsyncioCloseCodes Properties.AsyncioFailures
  Properties.AsyncioCompressedFailures Properties.AsyncioHandshake.
Local Open Scope N_scope.

(* ---- C88 ---- *)

Lemma pmd_control zl : accepts_control (pmd_ops zl).
Proof. intros p f Ic. exists p. cbn [ext_encode pmd_ops]. unfold pmd_encode. now rewrite Ic. Qed.

Section Pair.
Context {zl : zlib} (sync : z_comp zl -> z_decomp zl -> Prop).
Context (Zc : correct_zlib zl sync) (Tr : truncates zl sync) (Ex : expands_little zl).
Context (cfgA cfgB : config).
Hypothesis Hc : c_client cfgB = negb (c_client cfgA).
Hypothesis KA : forall n, length (c_key cfgA n) = 4%nat.
Hypothesis KB : forall n, length (c_key cfgB n) = 4%nat.
Context (p q : pmd zl) (rn ln : bool) (rb lb : Z) (sa : option (z_settings zl)) (rn' ln' : bool) (rb' lb' : Z) (sb : option (z_settings zl)).
Context (Cc : can_compress zl lb sa) (Cd : can_decompress zl).
Context (Hp : pmd_init rn ln rb lb sa = Ok p) (Hq : pmd_init rn' ln' rb' lb' sb = Ok q) (Mi : mirrored p q).
Notation X := (pmd_ops zl).
Notation okA := (fun ls => no_overlap X cfgA [p] ls /\ Forall small_label ls).
Notation fine := (fun out => forall max, c_max_size cfgB = Some max -> ~ too_big_compressed max out).

Lemma harmless_compressed lsA (stA : conn (pmd zl)) lsB (stB : conn (pmd zl)) :
  execution X cfgA [p] lsA stA -> okA lsA -> execution X cfgB [q] lsB stB -> in_transit (p_out stA) (incoming lsB) ->
  fine (p_out stA) -> r_eof (p_reader stB) = false -> harmless X cfgB stB.
Proof.
  intros HA [N Sm] HB (fl & Hb) Big Eo c HT.
  destruct (Recv_exec X cfgB [q] lsB stB HB) as [_ (_ & _ & (done & rest & D1 & D2 & _ & D4) & _)].
  rewrite HT in D4. cbn [tail] in D4.
  assert (D2' : Forall complete_message done) by (revert D2; apply Forall_impl; tauto).
  destruct (remaining_compressed sync Zc Tr Ex cfgA cfgB Hc KA p q _ _ _ _ _ _ _ _ _ _ lsA stA lsB stB fl Cc Cd Hp Hq Mi HA N Sm HB Hb) as (l' & Hl & Rm).
  destruct Rm as (read & later & wl & b_ & p2 & q2 & Hq2 & Lk2 & Le1 & Rs' & Ck' & En2 & Fl & Cl & Ln & Fr); [unfold T_done; now rewrite HT|].
  assert (Mk : negb (c_client cfgB) = c_client cfgA) by (rewrite Hc; apply Bool.negb_involutive).
  destruct (read_next_compressed sync Zc Tr b_ p2 q2 (c_client cfgA) (read_limit cfgB c) _ false fl wl l' later
    Lk2 Le1 Rs' Ck' En2 Fl Cl) as [R1 _].
  destruct (read_flowing_compressed sync Zc Tr b_ p2 q2 (c_client cfgA) (read_limit cfgB c) _ fl wl l' later
    Lk2 Le1 Rs' Ck' En2 Fl Cl) as [R2 _].
  rewrite Mk, Hq2. destruct (p_reader stB) as [buf eof]. cbn [r_buffer r_eof] in *. subst eof.
  split.
  - intros e0 r ex Run. destruct (R2 e0 r ex Run) as (f & l1 & g & gs1 & msg & -> & -> & _ & Nf).
    destruct (found_too_big cfgA cfgB Hc cfgB stA stB c rest done read f l1 g gs1 Hl D1 D2' D4 Ln Fr Nf) as (max & Ms & Tb). exact (Big max Ms Tb).
  - intros f r ex Run. destruct (R1 f r ex Run) as (l1 & ->).
    assert (Hf : In f (map o_frame (p_out stA))) by (rewrite Hl; apply in_or_app; right; now left).
    inversion Ck' as [|? ? Cf _]; subst.
    split; [|split].
    + intros Op. split; [apply ctrl_short; [now rewrite Op|exact Cf]|]. apply in_map_iff in Hf as (x & <- & Hx).
      exact (close_parses X [p] cfgA lsA stA x HA Hx Op).
    + intros Op. apply ctrl_short; [now rewrite Op|exact Cf].
    + intros Dt e1 Rm.
      destruct (sent_messages X cfgA [p] lsA stA HA N) as (dA & cur & S1 & S2 & S3 & S4).
      rewrite Hl in S1. unfold data_frames in S1, D1. rewrite filter_app, D1, <- app_assoc in S1. cbn [filter] in S1. rewrite Dt in S1.
      destruct (next_in_message done rest f _ dA cur D2' S2 S3 S4 (context_begun cfgB c rest D4) S1) as (post & Om).
      exact (reads_message cfgB c rest f post e1 D4 Om Rm).
Qed.
Lemma all_compressed lsA (stA : conn (pmd zl)) lsB (stB : conn (pmd zl)) c g r ex :
  execution X cfgA [p] lsA stA -> okA lsA -> execution X cfgB [q] lsB stB -> flat_map o_bytes (p_out stA) = incoming lsB ->
  p_T stB = TRead c -> r_eof (p_reader stB) = false ->
  run (legacy_read X (negb (c_client cfgB)) (read_limit cfgB c)) (p_reader stB) (p_exts stB) = OSusp g r ex ->
  map o_frame (p_out stA) = p_in stB.
Proof.
  intros HA [N Sm] HB Del HT Eo Run.
  rewrite <- (app_nil_r (incoming lsB)) in Del.
  destruct (remaining_compressed sync Zc Tr Ex cfgA cfgB Hc KA p q _ _ _ _ _ _ _ _ _ _ lsA stA lsB stB [] Cc Cd Hp Hq Mi HA N Sm HB Del) as (l' & Hl & Rm).
  destruct Rm as (read & later & wl & b_ & p2 & q2 & Hq2 & Lk2 & Le1 & Rs' & Ck' & En2 & Fl & Cl & Ln & Fr); [unfold T_done; now rewrite HT|].
  assert (Mk : negb (c_client cfgB) = c_client cfgA) by (rewrite Hc; apply Bool.negb_involutive).
  destruct (read_flowing_compressed sync Zc Tr b_ p2 q2 (c_client cfgA) (read_limit cfgB c) _ [] wl l' later
    Lk2 Le1 Rs' Ck' En2 Fl Cl) as [_ R].
  rewrite Mk, Hq2 in Run. destruct (p_reader stB) as [buf eof]. cbn [r_buffer r_eof] in *. subst eof.
  specialize (R g r ex eq_refl Run). subst l'. now rewrite app_nil_r in Hl.
Qed.
Hypothesis Timeout : exists t, c_close_timeout cfgB = Some t /\ 0 < t.
Lemma received_close_compressed lsA stA lsB stB : connected X cfgA [p] cfgB [q] lsA stA lsB stB ->
  okA lsA -> no_overlap X cfgB [q] lsB -> undisturbed X cfgB [q] lsB -> Forall short_reason lsB -> fine (p_out stA) ->
  flat_map o_bytes (p_out stA) = incoming lsB -> reading_idle X cfgB stB -> ~ last_is_ping stB -> ~ queue_full cfgB stB ->
  wrote_close stA ->
  wrote_close stB /\ finished stB /\ exists x code reason, In x (p_out stA) /\ close_frame (o_frame x) code reason /\ p_close stB = Some (code, reason).
Proof.
  apply (received_close X [p] [q] (pmd_control zl) cfgA cfgB KB okA fine); [| | | | |exact Timeout].
  - intros ls l [O1 O2]. split; [exact (no_overlap_prefix _ _ _ _ _ O1)|now apply Forall_app in O2].
  - intros l l' Big max Ms Tb. apply (Big max Ms). now apply too_big_compressed_more.
  - intros a s_ b_ s_' HA [N Sm] HB (fl & Hb).
    destruct (remaining_compressed sync Zc Tr Ex cfgA cfgB Hc KA p q _ _ _ _ _ _ _ _ _ _ a s_ b_ s_' fl Cc Cd Hp Hq Mi HA N Sm HB Hb) as (l' & Hl & _).
    now exists l'.
  - apply harmless_compressed.
  - apply all_compressed.
Qed.
End Pair.

(* With permessage-deflate, for any zlib which does what the documentation says: when one end has sent a
   Close frame, all data has been delivered and both ends have nothing left to read, then the closing
   handshake is complete.  This requires that the queues of messages aren't full and that the last frame
   received isn't a ping. *)
Theorem C88_compressed_partial :
  forall zl sync rn ln rb lb sa rn' ln' rb' lb' sb (p q : pmd zl) cfgA cfgB lsA stA lsB stB,
    correct_zlib zl sync -> truncates zl sync -> expands_little zl ->
    can_compress zl lb sa -> can_compress zl lb' sb -> can_decompress zl ->
    pmd_init rn ln rb lb sa = Ok p -> pmd_init rn' ln' rb' lb' sb = Ok q -> mirrored p q ->
    c_client cfgB = negb (c_client cfgA) ->
    connected (pmd_ops zl) cfgA [p] cfgB [q] lsA stA lsB stB ->
    regular_with cfgA [p] lsA (p_out stB) -> regular_with cfgB [q] lsB (p_out stA) ->
    flat_map o_bytes (p_out stA) = incoming lsB -> flat_map o_bytes (p_out stB) = incoming lsA ->
    reading_idle (pmd_ops zl) cfgA stA -> reading_idle (pmd_ops zl) cfgB stB ->
    ~ queue_full cfgA stA -> ~ queue_full cfgB stB -> ~ last_is_ping stA -> ~ last_is_ping stB ->
    wrote_close stA \/ wrote_close stB ->
    finished stA /\ finished stB /\ close_received stA stB /\ close_received stB stA.
Proof.
  intros zl sync rn ln rb lb sa rn' ln' rb' lb' sb p q cfgA cfgB lsA stA lsB stB Zc Tr Ex Ca Cb Cd Hp Hq Mi Hc C
    (KA & TA & NA & SmA & UA & SA & BA) (KB & TB & NB & SmB & UB & SB & BB) DA DB IA IB FA FB PA PB W.
  assert (Hc' : c_client cfgA = negb (c_client cfgB)) by now rewrite Hc, Bool.negb_involutive.
  assert (Mi' : mirrored q p) by (destruct Mi as (M1 & M2 & M3 & M4); repeat split; congruence).
  pose proof (C86_symmetric _ _ _ _ _ _ _ _ _ _ C) as C'.
  pose proof (received_close_compressed sync Zc Tr Ex cfgA cfgB Hc KA KB p q _ _ _ _ _ _ _ _ _ _ Ca Cd Hp Hq Mi TB
    lsA stA lsB stB C (conj NA SmA) NB UB SB BB DA IB PB FB) as RB.
  pose proof (received_close_compressed sync Zc Tr Ex cfgB cfgA Hc' KB KA q p _ _ _ _ _ _ _ _ _ _ Cb Cd Hq Hp Mi' TA
    lsB stB lsA stA C' (conj NB SmB) NA UA SA BA DB IA PA FA) as RA.
  assert (WB : wrote_close stB) by (destruct W as [W|W]; [apply RB, W|exact W]).
  destruct (RA WB) as (WA & FnA & RA'). destruct (RB WA) as (_ & FnB & RB').
  split; [exact FnA|]. split; [exact FnB|]. split; assumption.
Qed.

(* To show that executions meet the hypotheses *)
Lemma layout_holds g key w : layout (on_wire g key) w -> (length (f_data g) <= length w)%nat.
Proof.
  intros (ext & b0 & b1 & k & body & -> & _ & _ & _ & _ & _ & _ & _ & M). cbn [length]. rewrite !app_length.
  unfold on_wire in M. cbn [w_mask w_payload] in M. destruct key as [[[[? ?] ?] ?]|].
  - destruct M as [_ [-> _]]. lia.
  - destruct M as [_ ->]. lia.
Qed.
Definition small_compressed_b {E} (st : conn E) : bool :=
  (Z.of_nat (message_size (map o_frame (p_out st)) + length (flat_map o_bytes (p_out st))) <=? 100)%Z.
Lemma small_enough_compressed {E} (st : conn E) : small_compressed_b st = true -> ~ too_big_compressed 100 (p_out st).
Proof.
  unfold small_compressed_b. intros L. apply Z.leb_le in L. intros (before & x & later & done & rest & g & key & Ho & (D & _) & La & G).
  rewrite Ho in L. apply layout_holds in La.
  assert (S : forall l l', message_size (l ++ l') = (message_size l + message_size l')%nat).
  { intros l l'. unfold message_size. now rewrite flat_map_app, app_length. }
  assert (F : forall l, (message_size (data_frames l) <= message_size l)%nat).
  { intros l. induction l as [|h l IH]; [apply le_n|]. unfold data_frames in *. cbn [filter].
    change (h :: l) with ([h] ++ l). destruct (is_data_b h).
    - change (h :: filter is_data_b l) with ([h] ++ filter is_data_b l). rewrite !S. lia.
    - rewrite S. lia. }
  pose proof (F (map o_frame before)) as Fb. rewrite D, S in Fb.
  rewrite map_app, S, flat_map_app, app_length in L. cbn [map flat_map] in L. rewrite app_length in L.
  change (o_frame x :: map o_frame later) with ([o_frame x] ++ map o_frame later) in L. rewrite S in L.
  assert (message_size [o_frame x] = length (f_data (o_frame x))) as Sf by (unfold message_size; cbn [flat_map]; now rewrite app_nil_r).
  lia.
Qed.
Lemma regular_with_check cfg (p : pmd stored_zlib) ls (st : conn (pmd stored_zlib)) :
  c_key cfg = (fun _ => bs [1; 2; 3; 4]) -> c_close_timeout cfg = Some 10 -> c_max_size cfg = Some 100%Z ->
  small_compressed_b st = true -> no_overlap (pmd_ops stored_zlib) cfg [p] ls -> Forall small_label ls ->
  undisturbed (pmd_ops stored_zlib) cfg [p] ls -> Forall short_reason ls ->
  regular_with cfg [p] ls (p_out st).
Proof.
  intros K T M Sm N Sl U Sr. split; [now rewrite K|]. split; [exists 10; now rewrite T|]. split; [exact N|]. split; [exact Sl|]. split; [exact U|].
  split; [exact Sr|]. rewrite M. intros max Z. injection Z as <-. now apply small_enough_compressed.
Qed.

(* The client sends "hi", compressed, and calls close(1000, "bye"); the server reads the message and answers. *)
Definition ex_handshake_compressed : list (bool * label) :=
  map (pair true) ex_client_side ++
  map (pair false) [LOpen; LC Go; LData (ex_wire_compressed ex_client_side); LT Go; LCall CallRecv; LUser 0 Go; LT Go; LT DrainOk] ++
  map (pair true) [LData (bs [136; 5; 3; 232] ++ b "bye"); LT Go].
Definition applies_compressed_b {E} (lsA lsB : list label) (stA stB : conn E) : bool :=
  applies_b lsA lsB stA stB && small_compressed_b stA && small_compressed_b stB.
Example C88_compressed_applies :
  pmd_init (zl := stored_zlib) true false 15 12 None = Ok ex_client_pmd /\
  pmd_init (zl := stored_zlib) false true 12 15 None = Ok ex_server_pmd /\ mirrored ex_client_pmd ex_server_pmd /\
  correct_zlib stored_zlib stored_sync /\ truncates stored_zlib stored_sync /\ expands_little stored_zlib /\
  can_compress stored_zlib 12 None /\ can_compress stored_zlib 15 None /\ can_decompress stored_zlib /\
  exists stA stB, connected (pmd_ops stored_zlib) ex_config [ex_client_pmd] ex_server [ex_server_pmd]
      (side true ex_handshake_compressed) stA (side false ex_handshake_compressed) stB /\
    regular_with ex_config [ex_client_pmd] (side true ex_handshake_compressed) (p_out stB) /\
    regular_with ex_server [ex_server_pmd] (side false ex_handshake_compressed) (p_out stA) /\
    flat_map o_bytes (p_out stA) = incoming (side false ex_handshake_compressed) /\
    flat_map o_bytes (p_out stB) = incoming (side true ex_handshake_compressed) /\
    reading_idle (pmd_ops stored_zlib) ex_config stA /\ reading_idle (pmd_ops stored_zlib) ex_server stB /\
    ~ queue_full ex_config stA /\ ~ queue_full ex_server stB /\ ~ last_is_ping stA /\ ~ last_is_ping stB /\ wrote_close stA.
Proof.
  split; [vm_compute; reflexivity|]. split; [vm_compute; reflexivity|]. split; [vm_compute; repeat split; discriminate|].
  split; [exact stored_correct|]. split; [exact stored_truncates|]. split; [exact stored_expands|].
  split; [apply stored_can_compress; lia|]. split; [apply stored_can_compress; lia|]. split; [exact stored_can_decompress|].
  assert (W : exists stA stB, connected (pmd_ops stored_zlib) ex_config [ex_client_pmd] ex_server [ex_server_pmd]
      (side true ex_handshake_compressed) stA (side false ex_handshake_compressed) stB /\
    applies_compressed_b (side true ex_handshake_compressed) (side false ex_handshake_compressed) stA stB = true).
  { apply (by_connection _ _ _ _ _ _ ex_handshake_compressed
      (applies_compressed_b (side true ex_handshake_compressed) (side false ex_handshake_compressed))). vm_compute. reflexivity. }
  destruct W as (stA & stB & C & H). exists stA, stB. unfold applies_compressed_b, applies_b, meets_b, delivered_b in H.
  repeat (apply andb_prop in H as [H ?]).
  repeat match goal with Z : _ && _ = true |- _ => apply andb_prop in Z as [? ?] | Z : negb _ = true |- _ => apply Bool.negb_true_iff in Z
    | Z : bytes_eqb _ _ = true |- _ => apply bytes_eqb_eq in Z end.
  split; [exact C|].
  split; [apply regular_with_check; try reflexivity; [assumption|apply no_overlap_check; vm_compute; reflexivity
    |repeat constructor|apply undisturbed_check; vm_compute; reflexivity|apply short_all; vm_compute; reflexivity]|].
  split; [apply regular_with_check; try reflexivity; [assumption|apply no_overlap_check; vm_compute; reflexivity
    |repeat constructor|apply undisturbed_check; vm_compute; reflexivity|apply short_all; vm_compute; reflexivity]|].
  split; [assumption|]. split; [assumption|]. split; [now apply idle_check|]. split; [now apply idle_check|].
  split; [now apply no_queue_check|]. split; [now apply no_queue_check|]. split; [now apply ping_check|]. split; [now apply ping_check|].
  now apply closed_check.
Qed.

Print Assumptions C88_compressed_partial.
