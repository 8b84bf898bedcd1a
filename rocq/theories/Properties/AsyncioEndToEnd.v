(* Messages go from send() on one connection to recv() on the other one with the asyncio API (C75). *)
From Verif Require Import Base.Prelude Base.PreludeFacts Model.Streams Model.Frames Model.PermessageDeflate
  Model.LegacyFraming Model.LegacyProtocol Spec.Rfc6455 Spec.FrameSpec Spec.Messages Spec.Deflate Spec.Asyncio
  Proofs.FramesFacts Proofs.WireUnique Proofs.DeflateFacts Proofs.DeflateRun Proofs.StoredZlib Proofs.LegacyClose Proofs.LegacyWire
  Proofs.LegacyGrowth Proofs.LegacyEndToEnd Proofs.LegacyRead Proofs.LegacyDeflate
  Properties.FrameCodec Properties.Deflate Properties.AsyncioState Properties.AsyncioMessages Properties.AsyncioCalls
  Properties.AsyncioSends.
Local Open Scope N_scope.

(* ---- C75 ---- *)

(* the bytes of the frames written are those written to the transport *)
Section Written.
Context {E : Type} (X : ext_ops E) (cfg : config).
Hypothesis none : forall l : list E, l = [].
Hypothesis keys : forall n, length (c_key cfg n) = 4%nat.
Definition grows (st st' : conn E) : Prop :=
  exists new, p_out st' = p_out st ++ new /\ Forall (fun x => framed (c_client cfg) (o_frame x) (o_bytes x)) new.
Lemma step_grows st l st' : step X cfg st l = Some st' -> grows st st'.
Proof.
  intros St. revert St. apply (step_ow X cfg grows) with (Small := fun _ => True) (SmallD := fun _ => True); auto.
  - intros s1 s2 Q _. exists []. rewrite app_nil_r. now split.
  - intros s1 s2 s3 (n1 & Q1 & F1) (n2 & Q2 & F2). exists (n1 ++ n2). rewrite Q2, Q1, app_assoc. split; [reflexivity|].
    apply Forall_app. now split.
  - intros s1 w f s2 e _. unfold write. destruct (serialize _ _ _ _ _) as [exts r] eqn:Sr. intros H.
    destruct r as [data|]; apply pair_equal_spec in H as [<- _]; [|exists []; rewrite app_nil_r; now split].
    exists [Sent w f data]. split; [reflexivity|]. constructor; [|constructor]. cbn [o_frame o_bytes].
    rewrite (none (p_exts s1)) in Sr. unfold serialize in Sr. destruct (check f); [|discriminate].
    cbn [encode_in_order] in Sr. apply pair_equal_spec in Sr as [_ Hw].
    destruct (wire_layout _ _ _ _ (keys _) Hw) as (ext & L & _).
    exists (key_opt (c_client cfg) (c_key cfg (length (p_out s1)))). split; [now exists ext|].
    pose proof (keys (length (p_out s1))) as Hk. revert Hk. generalize (c_key cfg (length (p_out s1))).
    intros key Hk. destruct key as [|? [|? [|? [|? [|]]]]]; try discriminate Hk. now destruct (c_client cfg).
  - intros s1 c f r exts _. exists []. cbn [p_out set_in set_reader set_exts]. rewrite app_nil_r. now split.
  - intros s1 c e r exts _. exists []. cbn [p_out set_in set_reader set_exts]. rewrite app_nil_r. now split.
  - intros i a _. split; [destruct a as [| | | | |[]]; exact Logic.I|]. intros pc c _.
    assert (Fa : forall l : list py_data, Forall (fun _ => True) l) by (intros x; induction x; now constructor).
    destruct pc as [[]| | | | |? []| | | | | | | | | | |]; try exact Logic.I; try apply Fa; destruct m; try exact Logic.I; apply Fa.
Qed.
Lemma written_framed exts ls st : exec X cfg (initial exts) ls = Some st ->
  Forall2 (framed (c_client cfg)) (map o_frame (p_out st)) (map o_bytes (p_out st)).
Proof.
  intros H. enough (G : Forall (fun x => framed (c_client cfg) (o_frame x) (o_bytes x)) (p_out st))
    by (induction G; cbn [map]; now constructor).
  revert H. apply (exec_steps X cfg (fun st => Forall (fun x => framed (c_client cfg) (o_frame x) (o_bytes x)) (p_out st))).
  - intros s1 l s2 F H. destruct (step_grows s1 l s2 H) as (new & -> & Fn). apply Forall_app. now split.
  - constructor.
Qed.
End Written.

(* Connections A and B are the two ends of a connection, one being the client and the other one the
   server, without extensions.  The transport hands over the bytes that A writes, in order: what B has
   received is the beginning of what A has written. *)
Theorem C75_end_to_end_partial :
  forall cfgA lsA (stA : conn Empty_set) cfgB lsB (stB : conn Empty_set),
    c_client cfgB = negb (c_client cfgA) -> (forall n, length (c_key cfgA n) = 4%nat) ->
    execution no_ext cfgA [] lsA stA -> no_overlap no_ext cfgA [] lsA ->
    execution no_ext cfgB [] lsB stB ->
    (exists in_flight, flat_map o_bytes (p_out stA) = received lsB ++ in_flight) ->
    delivers lsA stA stB.
Proof.
  intros cfgA lsA stA cfgB lsB stB Hc Hk HA N HB (fl & Hb).
  apply (frames_deliver no_ext cfgA [] lsA stA no_ext cfgB [] lsB stB HA N HB).
  assert (No : forall l : list Empty_set, l = []) by (intros [|[] ?]; reflexivity).
  destruct (C56_wire cfgB lsB stB HB) as (wires & unread & _ & _ & W1 & W2 & _).
  eapply (frames_prefix (c_client cfgA) _ _ (p_in stB) wires unread fl).
  - exact (written_framed no_ext cfgA No Hk [] lsA stA HA).
  - clear - W2 Hc. induction W2 as [|f w fs ws (key & L & _ & M) _ IH]; constructor; [|exact IH].
    exists key. split; [exact L|]. rewrite M, Hc. apply Bool.negb_involutive.
  - rewrite <- flat_map_concat_map, Hb, W1, <- app_assoc. reflexivity.
Qed.

(* A client sends a text message and a binary message in two fragments, concurrently; the server
   receives most of the bytes that the client writes, in two pieces, and recv() returns the messages. *)
Definition ex_server : config := {|
  c_client := false; c_max_size := Some 100%Z; c_max_queue := Some 1; c_close_timeout := Some 10;
  c_ping_interval := Some 20; c_ping_timeout := Some 20; c_legacy_recv := false;
  c_can_write_eof := true; c_key := fun n => bs [1; 2; 3; 4] |}.
Definition ex_sends : list label :=
  [LOpen; LC Go; LCall (CallSend (SIter [PBytes (b "a"); PBytes (b "b")] None)); LCall (CallSend (SData (PStr [233])));
   LUser 0 Go; LUser 1 Go; LUser 0 DrainOk; LCall (CallPing None); LUser 2 (GoRand (b "1234")); LUser 0 DrainOk;
   LUser 0 DrainOk; LUser 1 Go; LUser 1 DrainOk; LCall (CallSend (SData (PStr [233]))); LUser 3 Go].
Definition ex_sent : bytes :=
  match exec no_ext ex_config (initial []) ex_sends with Some st => flat_map o_bytes (p_out st) | None => [] end.
Definition ex_receives : list label :=
  [LOpen; LC Go; LData (firstn 9 ex_sent); LT Go; LCall CallRecv; LUser 0 Go;
   LData (firstn 33 (skipn 9 ex_sent)); LT Go; LT Go; LT DrainOk; LT Go; LUser 0 Go; LT Go; LCall CallRecv; LUser 1 Go].
Example C75_applies :
  no_overlap no_ext ex_config [] ex_sends /\
  (exists stA, execution no_ext ex_config [] ex_sends stA /\
    bytes_eqb (flat_map o_bytes (p_out stA)) (received ex_receives ++ skipn 42 ex_sent) = true) /\
  exists stB, execution no_ext ex_server [] ex_receives stB /\
    match p_delivered stB, p_messages stB with
    | [(0%nat, MBinary x); (1%nat, MText [233])], [] => bytes_eqb x (b "ab")
    | _, _ => false
    end = true.
Proof.
  split; [apply no_overlap_check; vm_compute; reflexivity|].
  split; apply by_executing; vm_compute; reflexivity.
Qed.

(* The same with permessage-deflate, for any zlib which does what the documentation says. *)
Theorem C75_compressed_partial :
  forall zl sync rn ln rb lb sa rn' ln' rb' lb' sb (p q : pmd zl) cfgA lsA stA cfgB lsB stB,
    correct_zlib zl sync -> reports_limit zl sync -> expands_little zl -> can_compress zl lb sa -> can_decompress zl ->
    pmd_init rn ln rb lb sa = Ok p -> pmd_init rn' ln' rb' lb' sb = Ok q -> mirrored p q ->
    c_client cfgB = negb (c_client cfgA) -> (forall n, length (c_key cfgA n) = 4%nat) ->
    execution (pmd_ops zl) cfgA [p] lsA stA -> no_overlap (pmd_ops zl) cfgA [p] lsA -> Forall small_label lsA ->
    execution (pmd_ops zl) cfgB [q] lsB stB ->
    (exists in_flight, flat_map o_bytes (p_out stA) = received lsB ++ in_flight) ->
    delivers lsA stA stB.
Proof.
  intros zl sync rn ln rb lb sa rn' ln' rb' lb' sb p q cfgA lsA stA cfgB lsB stB Zc Rl Ex Cc Cd Hp Hq Mi Hc Hk HA N Sm HB (fl & Hb).
  pose proof (init_linked sync Zc _ _ _ _ _ _ _ _ _ _ _ _ Hp Hq Mi Cc Cd) as Lk.
  apply (frames_deliver (pmd_ops zl) cfgA [p] lsA stA (pmd_ops zl) cfgB [q] lsB stB HA N HB).
  destruct (wrote_exec Ex cfgA Hk [p] lsA stA Sm HA p eq_refl (lk_comp _ _ _ _ Lk)) as (p' & new & gs & _ & _ & Ho & En & _ & Fr & Rs).
  cbn [p_out initial app] in Ho. subst new.
  destruct (WireX_exec (pmd_ops zl) cfgB wrd wrd_refl wrd_trans (wrd_write cfgB) [q] lsB stB HB) as (gns & ws & rest & e & W1 & W2 & _).
  destruct (frames_prefix (c_client cfgA) gs (map o_bytes (p_out stA)) (map fst gns) ws rest fl) as [later Hg].
  { exact Fr. }
  { pose proof (reads_framed _ _ _ _ _ _ W2) as Rf. now rewrite Hc, Bool.negb_involutive in Rf. }
  { rewrite <- flat_map_concat_map, Hb, W1, <- app_assoc. reflexivity. }
  destruct (C60_not_interleaved_partial (pmd zl) (pmd_ops zl) cfgA [p] lsA stA HA N) as (done & cur & D1 & D2 & D3).
  assert (Le : legal false (map o_frame (p_out stA))).
  { apply legal_messages. exists (map (map o_frame) done), (map o_frame cur). unfold message_sequence. rewrite data_frames_map, D1, map_app, concat_map.
    split; [reflexivity|]. split; [apply Forall_map; revert D2; apply Forall_impl; intros m [H _]; exact H|].
    destruct D3 as [->|(w & H & _)]; [now left|now right]. }
  assert (Rs' : Forall (fun f => f_rsv1 f = false) (map o_frame (p_out stA))).
  { apply Forall_map. revert Rs. apply Forall_impl. intros x H. apply H. }
  destruct (reads_prefix sync Zc Rl cfgB p q _ gs Lk Le Rs' En _ _ _ _ W2 (ex_intro _ later Hg)) as (l' & _ & _ & Hl & _).
  exists l'. exact Hl.
Qed.

(* The same execution with compression. *)
Definition ex_client_pmd : pmd stored_zlib :=
  match pmd_init (zl := stored_zlib) true false 15 12 None with Ok p => p | Raise _ => ex_pmd end.
Definition ex_server_pmd : pmd stored_zlib :=
  match pmd_init (zl := stored_zlib) false true 12 15 None with Ok p => p | Raise _ => ex_pmd end.
Definition ex_sent_compressed : bytes :=
  match exec (pmd_ops stored_zlib) ex_config (initial [ex_client_pmd]) ex_sends with Some st => flat_map o_bytes (p_out st) | None => [] end.
Definition ex_receives_compressed : list label :=
  [LOpen; LC Go; LData (firstn 26 ex_sent_compressed); LT Go; LCall CallRecv; LUser 0 Go;
   LData (firstn 59 (skipn 26 ex_sent_compressed)); LT Go; LT Go; LT DrainOk; LT Go; LUser 0 Go; LT Go; LCall CallRecv; LUser 1 Go].
Lemma by_executing_with {E} (X : ext_ops E) cfg exts ls (P : conn E -> bool) :
  match exec X cfg (initial exts) ls with Some st => P st | None => false end = true ->
  exists st, execution X cfg exts ls st /\ P st = true.
Proof.
  unfold execution. destruct (exec X cfg (initial exts) ls) as [st|]; [|discriminate].
  intros H. exists st. now split.
Qed.
Example C75_compressed_applies :
  pmd_init (zl := stored_zlib) true false 15 12 None = Ok ex_client_pmd /\
  pmd_init (zl := stored_zlib) false true 12 15 None = Ok ex_server_pmd /\ mirrored ex_client_pmd ex_server_pmd /\
  correct_zlib stored_zlib stored_sync /\ reports_limit stored_zlib stored_sync /\ expands_little stored_zlib /\
  can_compress stored_zlib 12 None /\ can_decompress stored_zlib /\
  no_overlap (pmd_ops stored_zlib) ex_config [ex_client_pmd] ex_sends /\ Forall small_label ex_sends /\
  (exists stA, execution (pmd_ops stored_zlib) ex_config [ex_client_pmd] ex_sends stA /\
    bytes_eqb (flat_map o_bytes (p_out stA)) (received ex_receives_compressed ++ skipn 85 ex_sent_compressed) = true) /\
  exists stB, execution (pmd_ops stored_zlib) ex_server [ex_server_pmd] ex_receives_compressed stB /\
    match p_delivered stB, p_messages stB with
    | [(0%nat, MBinary x); (1%nat, MText [233])], [] => bytes_eqb x (b "ab")
    | _, _ => false
    end = true.
Proof.
  split; [vm_compute; reflexivity|]. split; [vm_compute; reflexivity|]. split; [vm_compute; repeat split; discriminate|].
  split; [exact stored_correct|]. split; [exact stored_reports|]. split; [exact stored_expands|].
  split; [apply stored_can_compress; lia|]. split; [exact stored_can_decompress|].
  split; [apply no_overlap_check; vm_compute; reflexivity|].
  split; [repeat constructor|].
  split; apply by_executing_with; vm_compute; reflexivity.
Qed.

Print Assumptions C75_end_to_end_partial.
Print Assumptions C75_compressed_partial.
