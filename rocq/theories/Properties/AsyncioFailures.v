(* Two endpoints of this library don't fail each other with a protocol error (C87). *)
From Verif Require Import Base.Prelude Base.PreludeFacts Model.Streams Model.Frames
  Model.LegacyFraming Model.LegacyProtocol Spec.Rfc6455 Spec.FrameSpec Spec.Messages Spec.Asyncio Spec.AsyncioCloseCodes Spec.AsyncioFailures
  Proofs.FramesFacts Proofs.WireUnique
  Proofs.LegacyShapes Proofs.LegacyFields Proofs.LegacyQueue Proofs.LegacyMessages Proofs.LegacyAuthors
  Proofs.LegacyClose Proofs.LegacyWire Proofs.LegacyGrowth Proofs.LegacyEndToEnd Proofs.LegacyCloseOrigin
  Proofs.LegacyFailures Proofs.LegacyPeer
  Properties.FrameCodec Properties.AsyncioState Properties.AsyncioMessages Properties.AsyncioCalls
  Properties.AsyncioSends Properties.AsyncioEndToEnd Properties.AsyncioCloseCodes.
Local Open Scope N_scope.

(* ---- C87 ---- *)

(* all frames which are written were checked *)
Section Checked.
Context {E : Type} (X : ext_ops E) (cfg : config).
Definition checked (x : sent) : Prop := check (o_frame x) = Ok tt.
Definition grows_checked (st st' : conn E) : Prop :=
  exists new, p_out st' = p_out st ++ new /\ Forall checked new.
Lemma step_checked st l st' : step X cfg st l = Some st' -> grows_checked st st'.
Proof.
  intros St. revert St. apply (LegacyGrowth.step_ow X cfg grows_checked) with (Small := fun _ => True) (SmallD := fun _ => True); auto.
  - intros s1 s2 Q _. exists []. rewrite app_nil_r. now split.
  - intros s1 s2 s3 (n1 & Q1 & F1) (n2 & Q2 & F2). exists (n1 ++ n2). rewrite Q2, Q1, app_assoc. split; [reflexivity|].
    apply Forall_app. now split.
  - intros s1 w f s2 e _. unfold write. destruct (serialize _ _ _ _ _) as [exts r] eqn:Sr. intros H.
    destruct r as [data|]; apply pair_equal_spec in H as [<- _]; [|exists []; rewrite app_nil_r; now split].
    exists [Sent w f data]. split; [reflexivity|]. constructor; [|constructor]. unfold checked. cbn [o_frame].
    unfold serialize in Sr. destruct (check f) as [[]|]; [reflexivity|discriminate].
  - intros s1 c f r exts _. exists []. cbn [p_out set_in set_reader set_exts]. rewrite app_nil_r. now split.
  - intros s1 c e r exts _. exists []. cbn [p_out set_in set_reader set_exts]. rewrite app_nil_r. now split.
  - intros i a _. split; [destruct a as [| | | | |[]]; exact Logic.I|]. intros pc c _.
    assert (Fa : forall l : list py_data, Forall (fun _ => True) l) by (intros x; induction x; now constructor).
    destruct pc as [[]| | | | |? []| | | | | | | | | | |]; try exact Logic.I; try apply Fa; destruct m; try exact Logic.I; apply Fa.
Qed.
Lemma written_checked exts ls st : exec X cfg (initial exts) ls = Some st -> Forall checked (p_out st).
Proof.
  apply (exec_steps X cfg (fun st => Forall checked (p_out st))).
  - intros s1 l s2 F H. destruct (step_checked s1 l s2 H) as (new & -> & Fn). apply Forall_app. now split.
  - constructor.
Qed.
End Checked.

Lemma pong_written {E} (X : ext_ops E) cfg (f : frame) (st : conn E) w st' e :
  (forall g, is_ctrl (f_opcode g) = true -> encode_in_order X (p_exts st) g = (p_exts st, Ok g)) ->
  (forall n, length (c_key cfg n) = 4%nat) -> f_opcode f = PING -> check f = Ok tt ->
  write X cfg st w (mkframe true PONG (f_data f)) <> (st', Some e).
Proof.
  intros Pl Hk Op Ck. unfold write, serialize. unfold check in Ck. rewrite Op in Ck. cbn [is_ctrl] in Ck.
  destruct (f_rsv1 f || f_rsv2 f || f_rsv3 f); [discriminate|].
  destruct (125 <? lenN (f_data f)) eqn:L; [discriminate|].
  assert (Ok1 : check (mkframe true PONG (f_data f)) = Ok tt).
  { unfold check, mkframe. cbn [f_rsv1 f_rsv2 f_rsv3 f_opcode f_data f_fin orb is_ctrl negb]. now rewrite L. }
  rewrite Ok1, Pl by reflexivity. apply N.ltb_ge in L.
  destruct (wire_succeeds (mkframe true PONG (f_data f)) (c_client cfg) (c_key cfg (length (p_out st))) (Hk _)) as (wr & ->).
  { cbn [mkframe f_data]. lia. }
  discriminate.
Qed.

Lemma pong_written_plain cfg (f : frame) (st : conn Empty_set) w st' e :
  (forall n, length (c_key cfg n) = 4%nat) -> f_opcode f = PING -> check f = Ok tt ->
  write no_ext cfg st w (mkframe true PONG (f_data f)) <> (st', Some e).
Proof. apply pong_written. intros g _. destruct (p_exts st) as [|[]]; reflexivity. Qed.

Section Pair.
Context (cfgA cfgB : config).
Hypothesis Hc : c_client cfgB = negb (c_client cfgA).
Hypothesis KA : forall n, length (c_key cfgA n) = 4%nat.
Hypothesis KB : forall n, length (c_key cfgB n) = 4%nat.
Lemma expected_plain lsA (stA : conn Empty_set) lsB (stB : conn Empty_set) (Fails : Z -> Prop) :
  execution no_ext cfgA [] lsA stA -> no_overlap no_ext cfgA [] lsA ->
  execution no_ext cfgB [] lsB stB -> in_transit (p_out stA) (incoming lsB) ->
  (forall max, c_max_size cfgB = Some max -> too_big max (map o_frame (p_out stA)) -> Fails 1009%Z) ->
  expected no_ext cfgB Fails stB.
Proof.
  intros HA N HB (fl & Hb) Big.
  assert (No : forall l : list Empty_set, l = []) by (intros [|[] ?]; reflexivity).
  destruct (Recv_exec no_ext cfgB [] lsB stB HB) as [Bs ((_ & Wp) & _ & (done & rest & D1 & D2 & _ & D4) & _)].
  split; [|split; [exact (CT_closed stB (CT_exec no_ext cfgB [] lsB stB HB))|split; [exact Wp|]]].
  2:{ intros Q. destruct Bs as (_ & L & _). apply L in Q. unfold closed_state. now rewrite Q. }
  intros c HT. rewrite HT in D4. cbn [tail] in D4.
  destruct (Wire_exec no_ext cfgB [] lsB stB No HB) as (wires & unread & W1 & W2 & W3).
  assert (unread = r_buffer (p_reader stB)) as -> by (apply W3; unfold T_done; now rewrite HT).
  destruct (frames_remain (c_client cfgA) (map o_frame (p_out stA)) (map o_bytes (p_out stA)) (p_in stB) wires
     (r_buffer (p_reader stB) ++ fl)) as (later & wl & Ef & Fl & Cl).
  { exact (written_framed no_ext cfgA No KA [] lsA stA HA). }
  { clear - W2 Hc. induction W2 as [|f w fs ws (key & L & _ & M) _ IH]; constructor; [|exact IH].
    exists key. split; [exact L|]. rewrite M, Hc. apply Bool.negb_involutive. }
  { rewrite <- flat_map_concat_map, Hb. change (incoming lsB) with (LegacyWire.received lsB).
    rewrite W1, <- app_assoc. reflexivity. }
  pose proof (written_checked no_ext cfgA [] lsA stA HA) as Ck.
  assert (Ck' : Forall (fun f => check f = Ok tt) (p_in stB ++ later)) by (rewrite <- Ef; now apply Forall_map).
  apply Forall_app in Ck' as [_ Ck'].
  assert (Mk : negb (c_client cfgB) = c_client cfgA) by (rewrite Hc; apply Bool.negb_involutive).
  destruct (read_next no_ext (c_client cfgA) (read_limit cfgB c) _ (r_eof (p_reader stB)) fl wl later Fl Cl Ck') as [R1 R2].
  rewrite Mk, (No (p_exts stB)). destruct (p_reader stB) as [buf eof]. cbn [r_buffer r_eof] in *.
  split.
  - intros e r ex Run. destruct (R2 e r ex Run) as [->|(f & later' & msg & -> & -> & Nf)]; [now left|right].
    cbn [fail_code]. rewrite (context_limit cfgB c rest D4) in Nf. unfold remaining in Nf.
    destruct (c_max_size cfgB) as [max|] eqn:Ms; [|destruct (Nf Logic.I)]. apply (Big max eq_refl).
    exists (p_in stB), f, later', done, rest. split; [exact Ef|]. split.
    + split; [exact D1|]. split; [revert D2; apply Forall_impl; tauto|exact (context_begun cfgB c rest D4)].
    + unfold fits in Nf. lia.
  - intros f r ex Run. destruct (R1 f r ex Run) as (later' & ->).
    assert (Hf : In f (map o_frame (p_out stA))) by (rewrite Ef; apply in_or_app; right; now left).
    inversion Ck' as [|? ? Cf _]; subst.
    split; [|split].
    + intros Op e Pc. exfalso. apply in_map_iff in Hf as (x & <- & Hx).
      destruct (C86_origin _ no_ext cfgA [] lsA stA x HA Hx Op) as (code & reason & Q).
      assert (Cl' : close_frame (o_frame x) code reason) by (destruct Q as [Q|Q]; [exact (chosen_close _ _ _ _ Q)|apply Q]).
      apply close_frame_parses in Cl' as [_ Q']. congruence.
    + intros Op st w st' e Wr. exfalso. exact (pong_written_plain cfgB f st w st' e KB Op Cf Wr).
    + intros Dt e Rm. exfalso.
      destruct (sent_messages no_ext cfgA [] lsA stA HA N) as (dA & cur & S1 & S2 & S3 & S4).
      rewrite Ef in S1. unfold data_frames in S1, D1. rewrite filter_app, D1, <- app_assoc in S1. cbn [filter] in S1. rewrite Dt in S1.
      assert (D2' : Forall complete_message done) by (revert D2; apply Forall_impl; tauto).
      destruct (next_in_message done rest f _ dA cur D2' S2 S3 S4 (context_begun cfgB c rest D4) S1) as (post & Om).
      exact (reads_message cfgB c rest f post e D4 Om Rm).
Qed.

End Pair.

Lemma too_big_more max l l' : too_big max l -> too_big max (l ++ l').
Proof.
  intros (before & f & later & done & rest & -> & Q). exists before, f, (later ++ l'), done, rest.
  split; [now rewrite <- app_assoc|exact Q].
Qed.
Lemma calls_more ls l i c : nth_error (calls ls) i = Some c -> nth_error (calls (ls ++ l)) i = Some c.
Proof. intros Q. unfold calls in *. rewrite flat_map_app, nth_error_app1; [exact Q|]. apply nth_error_Some. congruence. Qed.
Lemma justified_more {E} (X : ext_ops E) cfg exts ls l (big big' : Z -> Prop) code :
  (forall max, big max -> big' max) ->
  justified X cfg exts ls big code -> justified X cfg exts (ls ++ l) big' code.
Proof.
  intros Hb [[-> [Q|Q]]|[Q|(-> & max & Ms & Q)]].
  - left. split; [reflexivity|]. left. apply in_or_app. now left.
  - left. split; [reflexivity|]. right. destruct Q as (before & i & a & after & st & st' & m & e & -> & Q2 & Q3 & Q4 & Q5).
    exists before, i, a, (after ++ l), st, st', m, e. split; [now rewrite <- app_assoc|]. split; [exact Q2|]. split; [exact Q3|].
    split; [now apply calls_more|exact Q5].
  - right. left. apply in_or_app. now left.
  - right. right. split; [reflexivity|]. exists max. split; [exact Ms|]. now apply Hb.
Qed.
(* the calls in the middle of send() *)
Lemma sending_call {E} (X : ext_ops E) cfg exts ls st i pc c : exec X cfg (initial exts) ls = Some st ->
  nth_error (p_users st) i = Some (pc, c) -> sending pc -> exists m, nth_error (calls ls) i = Some (CallSend m).
Proof.
  intros H U S. destruct (Authors_exec X cfg exts ls st H) as (Ln & Nw & _).
  destruct (nth_error (calls ls) i) as [cl|] eqn:Hi.
  - assert (D : (exists m, cl = CallSend m) \/ forall m, cl <> CallSend m).
    { destruct cl; try (right; intros ? ?; discriminate). left. eauto. }
    destruct D as [[m ->]|D]; [now exists m|]. exfalso.
    destruct (Nw i cl Hi D) as (pc' & b_ & Q1 & Q2). rewrite U in Q1. injection Q1 as <- _.
    destruct pc as [[]| | | | | | | | | | | | | | | |]; cbn in S, Q2; contradiction.
  - apply nth_error_None in Hi. rewrite <- Ln in Hi. apply nth_error_None in Hi. congruence.
Qed.
Section Justified.
Context {E : Type} (X : ext_ops E) (cfgA : config) (extsA : list E) (cfgB : config) (extsB : list E).
Context (ok : list label -> Prop) (big : list sent -> Z -> Prop).
Hypothesis ok_prefix : forall ls l, ok (ls ++ [l]) -> ok ls.
Hypothesis big_more : forall max l l', big l max -> big (l ++ l') max.
Hypothesis expects : forall lsA stA lsB stB (Fails : Z -> Prop),
  execution X cfgA extsA lsA stA -> ok lsA -> execution X cfgB extsB lsB stB -> in_transit (p_out stA) (incoming lsB) ->
  (forall max, c_max_size cfgB = Some max -> big (p_out stA) max -> Fails 1009%Z) -> expected X cfgB Fails stB.
Lemma failures_justified lsA stA lsB stB : connected X cfgA extsA cfgB extsB lsA stA lsB stB -> ok lsA ->
  forall y, In y (p_out stB) -> o_by y = ByFailure -> f_opcode (o_frame y) = CLOSE ->
    exists code, justified X cfgB extsB lsB (big (p_out stA)) code /\ serialize_close code [] = Ok (f_data (o_frame y)).
Proof.
  induction 1 as [|lsA stA lsB stB l stA' C IH S T|lsA stA lsB stB l stB' C IH S T]; intros N y Hy By Op.
  - destruct Hy.
  - destruct (connected_runs _ _ _ _ _ _ _ _ _ _ C) as (HA & _ & _).
    destruct (IH (ok_prefix _ _ N) y Hy By Op) as (code & J & Sc). exists code. split; [|exact Sc].
    destruct (origin_step X cfgA extsA lsA l stA stA' HA S) as [(new & -> & _) _].
    rewrite <- (app_nil_r lsB). revert J. apply justified_more. intros max. apply big_more.
  - destruct (connected_runs _ _ _ _ _ _ _ _ _ _ C) as (HA & HB & TA & _).
    set (Fails := justified X cfgB extsB (lsB ++ [l]) (big (p_out stA))).
    assert (Ow : ow (called lsB) Fails stB stB').
    { pose proof S as S'. revert S'. apply LegacyCloseOrigin.step_ow.
      - intros i code reason c Q. exact (Started_exec X cfgB extsB lsB stB HB i _ c Q).
      - intros code ->. right. left. apply in_or_app. right. now left.
      - intros ->. left. split; [reflexivity|]. left. apply in_or_app. right. now left.
      - intros i a pc c -> U Se Ra. left. split; [reflexivity|]. right.
        destruct (sending_call X cfgB extsB lsB stB i pc c HB U Se) as [m Hm].
        assert (Lt : (i < length (p_users stB'))%nat).
        { destruct (Authors_exec X cfgB extsB (lsB ++ [LUser i a]) stB') as (Ln & _).
          { rewrite exec_app. unfold execution in HB. rewrite HB. cbn [exec]. now rewrite S. }
          rewrite Ln. apply nth_error_Some. rewrite (calls_more _ _ _ _ Hm). discriminate. }
        apply nth_error_Some in Lt. destruct (nth_error (p_users stB') i) as [[pc' c']|] eqn:U'; [|contradiction].
        destruct (Ra pc' c' U') as (e & -> & ->).
        exists lsB, i, a, [], stB, stB', m, e. split; [reflexivity|]. split; [exact HB|]. split; [exact S|].
        split; [now apply calls_more|exact U'].
      - right. apply (expects lsA stA lsB stB Fails HA N HB TA).
        intros max Ms Tb. right. right. split; [reflexivity|]. now exists max. }
    destruct Ow as [(new & Ho & Fn) _]. rewrite Ho in Hy. apply in_app_or in Hy as [Hy|Hy].
    + destruct (IH N y Hy By Op) as (code & J & Sc). exists code. split; [|exact Sc].
      revert J. now apply justified_more.
    + rewrite Forall_forall in Fn. specialize (Fn y Hy Op). rewrite By in Fn. destruct Fn as (code & J & _ & Sc). now exists code.
Qed.
End Justified.

(* When the fragmented messages sent by A don't overlap (C60), B doesn't fail the connection because of
   what it receives, except when it receives a message larger than its limit. *)
Theorem C87_no_protocol_error_partial :
  forall cfgA cfgB lsA stA lsB stB,
    c_client cfgB = negb (c_client cfgA) ->
    (forall n, length (c_key cfgA n) = 4%nat) -> (forall n, length (c_key cfgB n) = 4%nat) ->
    connected no_ext cfgA [] cfgB [] lsA stA lsB stB -> no_overlap no_ext cfgA [] lsA ->
    forall y code reason, In y (p_out stB) -> o_by y = ByFailure -> close_frame (o_frame y) code reason ->
      reason = [] /\ justified no_ext cfgB [] lsB (fun max => too_big max (map o_frame (p_out stA))) code.
Proof.
  intros cfgA cfgB lsA stA lsB stB Hc KA KB C N y code reason Hy By Cf.
  destruct (failures_justified no_ext cfgA [] cfgB [] (no_overlap no_ext cfgA []) (fun out max => too_big max (map o_frame out)))
    with (lsA := lsA) (stA := stA) (lsB := lsB) (stB := stB) (y := y) as (code' & J & Sc); [| | |exact C|exact N|exact Hy|exact By|exact (proj1 Cf)|].
  { exact (no_overlap_prefix no_ext cfgA []). }
  { intros max l l'. rewrite map_app. apply too_big_more. }
  { intros a sa b_ sb Fails HA Ov HB Tr. exact (expected_plain cfgA cfgB Hc KA KB a sa b_ sb Fails HA Ov HB Tr). }
  apply (serialized_close _ _ _ (proj1 Cf)) in Sc. destruct (same_close _ _ _ _ _ _ Cf Sc eq_refl) as [-> ->]. now split.
Qed.

(* In particular, when no fragmented messages overlap, the close code can't be 1002 (protocol error) or
   1007 (invalid data), unless it was given to close(). *)
Theorem C87_close_code_partial :
  forall cfgA cfgB lsA stA lsB stB code reason,
    c_client cfgB = negb (c_client cfgA) ->
    (forall n, length (c_key cfgA n) = 4%nat) -> (forall n, length (c_key cfgB n) = 4%nat) ->
    connected no_ext cfgA [] cfgB [] lsA stA lsB stB ->
    no_overlap no_ext cfgA [] lsA -> no_overlap no_ext cfgB [] lsB ->
    p_state stB = Closed -> p_close stB = Some (code, reason) -> code = 1002%Z \/ code = 1007%Z ->
    gives lsA code \/ gives lsB code.
Proof.
  intros cfgA cfgB lsA stA lsB stB code reason Hc KA KB C NA NB Hs Hk Co.
  destruct (C86_close_code_end_to_end cfgA cfgB lsA stA lsB stB Hc KA KB C Hs) as (c & r & Q & Fp).
  rewrite Hk in Q. injection Q as <- <-.
  assert (Hc' : c_client cfgA = negb (c_client cfgB)) by now rewrite Hc, Bool.negb_involutive.
  assert (G : forall cfg ls w, justified no_ext cfg [] ls w code -> gives ls code).
  { intros cfg ls w [[-> _]|[Q|[-> _]]]; [destruct Co; discriminate|now right|destruct Co; discriminate]. }
  assert (GA : forall x, In x (p_out stA) -> chosen lsA x code reason -> gives lsA code).
  { intros x Hx [(_ & i & _ & Q)|(Cf & By & _)]; [left; eauto|].
    apply (G cfgA lsA (fun max => too_big max (map o_frame (p_out stB)))).
    exact (proj2 (C87_no_protocol_error_partial cfgB cfgA lsB stB lsA stA Hc' KB KA (C86_symmetric _ _ _ _ _ _ _ _ _ _ C) NB x code reason Hx By Cf)). }
  assert (GB : forall x, In x (p_out stB) -> chosen lsB x code reason -> gives lsB code).
  { intros x Hx [(_ & i & _ & Q)|(Cf & By & _)]; [left; eauto|].
    apply (G cfgB lsB (fun max => too_big max (map o_frame (p_out stA)))).
    exact (proj2 (C87_no_protocol_error_partial cfgA cfgB lsA stA lsB stB Hc KA KB C NA x code reason Hx By Cf)). }
  destruct Fp as [(-> & _)|(before & x & Ex & [Ch|(_ & _ & before' & y & Ey & Ch)])].
  - destruct Co; discriminate.
  - left. apply (GA x); [rewrite Ex; apply in_or_app; right; now left|exact Ch].
  - right. apply (GB y); [rewrite Ey; apply in_or_app; right; now left|exact Ch].
Qed.

(* Two calls to send() with asynchronous iterables, at the same time, make the other end fail the
   connection with code 1002 (the finding of C60). *)
Definition ex_failed (code : Z) (st : conn Empty_set) : bool :=
  existsb (fun y => match o_by y, f_opcode (o_frame y), parse_close (f_data (o_frame y)) with
                    | ByFailure, CLOSE, Ok (c, _) => (c =? code)%Z | _, _, _ => false end) (p_out st).
Lemma ex_failed_spec code st : ex_failed code st = true ->
  exists y reason, In y (p_out st) /\ o_by y = ByFailure /\ close_frame (o_frame y) code reason.
Proof.
  unfold ex_failed. intros H. apply existsb_exists in H as (y & Hy & H).
  destruct (o_by y) eqn:By; try discriminate. destruct (f_opcode (o_frame y)) eqn:Op; try discriminate.
  destruct (parse_close _) as [[c r]|] eqn:P; [|discriminate]. apply Z.eqb_eq in H. subst c.
  exists y, r. split; [exact Hy|]. split; [exact By|]. apply close_frame_parses. now split.
Qed.
Definition ex_wire (ls : list label) : bytes :=
  match exec no_ext ex_config (initial []) ls with Some st => flat_map o_bytes (p_out st) | None => [] end.
Definition ex_overlapping : list label :=
  [LOpen; LC Go; LCall (CallSend SAsync); LCall (CallSend SAsync); LUser 0 Go; LUser 1 Go;
   LUser 0 (Next (Item (PStr (s "a")))); LUser 1 (Next (Item (PStr (s "b"))))].
Definition ex_overlap : list (bool * label) :=
  map (pair true) ex_overlapping ++
  map (pair false) [LOpen; LC Go; LData (ex_wire ex_overlapping); LT Go; LT Go].
Theorem C87_overlap_refuted :
  ~ (forall cfgA cfgB lsA stA lsB stB,
    c_client cfgB = negb (c_client cfgA) ->
    (forall n, length (c_key cfgA n) = 4%nat) -> (forall n, length (c_key cfgB n) = 4%nat) ->
    connected no_ext cfgA [] cfgB [] lsA stA lsB stB ->
    forall y code reason, In y (p_out stB) -> o_by y = ByFailure -> close_frame (o_frame y) code reason ->
      justified no_ext cfgB [] lsB (fun max => too_big max (map o_frame (p_out stA))) code).
Proof.
  intros H.
  assert (W : exists stA stB, connected no_ext ex_config [] ex_server [] (side true ex_overlap) stA (side false ex_overlap) stB /\
    ex_failed 1002 stB = true).
  { apply (by_connection _ _ _ _ _ _ ex_overlap (fun _ st => ex_failed 1002 st)). vm_compute. reflexivity. }
  destruct W as (stA & stB & C & Fd). destruct (ex_failed_spec _ _ Fd) as (y & reason & Hy & By & Cf).
  destruct (H ex_config ex_server _ stA _ stB eq_refl (fun _ => eq_refl) (fun _ => eq_refl) C y _ reason Hy By Cf)
    as [[Q _]|[Q|[Q _]]]; [discriminate Q| |discriminate Q].
  cbn [side ex_overlap map filter app fst snd Bool.eqb ex_overlapping] in Q.
  repeat (destruct Q as [Q|Q]; [discriminate Q|]). destruct Q.
Qed.

(* A client sends "a", then a message of 101 bytes to a server whose limit is 100 bytes: the server fails
   the connection with code 1009. *)
Definition ex_sending : list label :=
  [LOpen; LC Go; LCall (CallSend (SData (PStr (s "a")))); LUser 0 Go; LUser 0 DrainOk;
   LCall (CallSend (SData (PBytes (concat (repeat (bs [0]) 101))))); LUser 1 Go; LUser 1 DrainOk].
Definition ex_fails : list (bool * label) :=
  map (pair true) ex_sending ++
  map (pair false) [LOpen; LC Go; LData (ex_wire ex_sending); LT Go; LT Go].
Example C87_applies :
  (exists stA stB, connected no_ext ex_config [] ex_server [] (side true ex_fails) stA (side false ex_fails) stB /\
    ex_failed 1009 stB = true) /\
  no_overlap no_ext ex_config [] (side true ex_fails).
Proof.
  split; [|apply no_overlap_check; vm_compute; reflexivity].
  apply (by_connection _ _ _ _ _ _ ex_fails (fun _ st => ex_failed 1009 st)). vm_compute. reflexivity.
Qed.

Print Assumptions C87_no_protocol_error_partial.
Print Assumptions C87_close_code_partial.
Print Assumptions C87_overlap_refuted.

