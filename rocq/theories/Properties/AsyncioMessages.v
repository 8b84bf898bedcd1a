(* Properties of the messages received with the asyncio API (C55-C57). *)
From Verif Require Import Base.Prelude Base.PreludeFacts Base.Utf8 Base.Utf8Facts Model.Streams Model.Frames
  Model.LegacyFraming Model.LegacyProtocol Spec.Rfc6455 Spec.Utf8Spec Spec.FrameSpec Spec.Messages Spec.Asyncio
  Proofs.Utf8SpecFacts
  Proofs.LegacyPrims Proofs.LegacyFields Proofs.LegacyShapes Proofs.LegacyUsers Proofs.LegacyClose
  Proofs.LegacyQueue Proofs.LegacyMessages Proofs.LegacyWire Properties.FrameCodec Properties.AsyncioState.
Local Open Scope N_scope.

(* ---- C55 ---- *)

(* read_message reads data frames until it can return a message or must raise an exception *)
Fixpoint read_all (cfg : config) (c : rctx) (frames : list frame) : rres :=
  match frames with
  | [] => RNext c
  | f :: rest => match read_message cfg c f with RNext c => read_all cfg c rest | r => r end
  end.

Lemma complete_split m f more : complete_message (m ++ f :: more) -> m = [] \/ unfinished_message m ->
  (more = [] /\ f_fin f = true) \/ (more <> [] /\ f_fin f = false).
Proof.
  assert (F : forall g, ~ final g -> f_fin g = false) by (intros g; unfold final; now destruct (f_fin g)).
  intros [(g & H1 & _ & H2)|(m' & g & H1 & (h & r & H2 & _ & Hh & Hr) & _ & H3)] _.
  - destruct m as [|a m]; [|destruct m; discriminate]. injection H1 as -> ->. left. now split.
  - destruct (exists_last (l := f :: more)) as (l & z & El); [discriminate|].
    rewrite El, app_assoc in H1. apply app_inj_tail in H1 as [H1 ->].
    destruct l as [|a l].
    + injection El as -> ->. left. now split.
    + injection El as <- ->. right. split; [now destruct l|].
      rewrite H2 in H1. destruct m as [|b m].
      * injection H1 as <- _. now apply F.
      * injection H1 as _ H1. subst r. apply Forall_app in Hr as [_ Hr]. inversion Hr; subst.
        apply F. tauto.
Qed.
Lemma complete_continues m f more : complete_message (m ++ f :: more) -> m <> [] -> f_opcode f = CONT.
Proof.
  intros [(g & H1 & _)|(m' & g & H1 & (h & r & H2 & _ & Hh & Hr) & H4 & H3)] Hm.
  - destruct m as [|a m]; [contradiction|destruct m; discriminate].
  - destruct (exists_last (l := f :: more)) as (l & z & El); [discriminate|].
    rewrite El, app_assoc in H1. apply app_inj_tail in H1 as [H1 ->].
    destruct l as [|a l].
    + injection El as -> ->. exact H4.
    + injection El as <- ->. rewrite H2 in H1. destruct m as [|b m]; [contradiction|].
      injection H1 as _ H1. subst r. apply Forall_app in Hr as [_ Hr]. inversion Hr; subst. tauto.
Qed.

Lemma read_all_text cfg : forall more c rest,
  context cfg c rest -> complete_message (rest ++ more) ->
  (exists f r, rest ++ more = f :: r /\ f_opcode f = TEXT) ->
  more <> [] ->
  match read_all cfg c more with
  | RMsg (MText t) => utf8_text t (flat_map f_data (rest ++ more))
  | RExn e => ~ valid_utf8 (flat_map f_data (rest ++ more)) /\ exists reason pos, e = UnicodeDecodeError reason pos
  | _ => False
  end.
Proof.
  induction more as [|f more IH]; [contradiction|]. intros c rest Hc Hm Ht _. cbn [read_all].
  pose proof (context_begun _ _ _ Hc) as Hb.
  pose proof (complete_split _ _ _ Hm Hb) as Hf.
  pose proof (read_message_spec cfg c rest f Hc) as Hr.
  destruct (read_message cfg c f) as [m|c'|e] eqn:R.
  - destruct Hr as [Hr1 Hr2].
    assert (more = []) as ->.
    { destruct Hf as [[-> _]|[_ Hf]]; [reflexivity|]. exfalso.
      destruct c; cbn [read_message] in R; destruct (f_opcode f); try discriminate; rewrite ?Hf in R;
        unfold text_chunk, binary_chunk in R; rewrite ?Hf in R; try discriminate;
        destruct (utf8_inc_decode _ _ _) as [? []]; discriminate. }
    destruct Ht as (g & r & Eg & Og). rewrite Eg in Hr2 |- *.
    destruct m as [t|d]; cbn [carries] in Hr2; [tauto|]. destruct Hr2 as [Hr2 _]. congruence.
  - change (f :: more) with ([f] ++ more) in Hm, Ht |- *. rewrite app_assoc in Hm, Ht |- *.
    destruct more as [|g more].
    + exfalso. destruct Hf as [[_ Hf]|[Hf _]]; [|now apply Hf].
      destruct c; cbn [read_message] in R; destruct (f_opcode f); try discriminate; rewrite ?Hf in R;
        unfold text_chunk, binary_chunk in R; rewrite ?Hf in R; try discriminate;
        try (destruct (utf8_inc_decode _ _ _) as [? []]; discriminate);
        destruct (utf8_decode _); discriminate.
    + apply IH; [exact Hr|exact Hm|exact Ht|discriminate].
  - clear Hr. destruct c as [|chunks pending max|chunks max]; cbn [context] in Hc; cbn [read_message] in R.
    + subst rest. destruct Ht as (g & r & Eg & Og). cbn [app] in Eg. injection Eg as <- <-. rewrite Og in R.
      destruct (f_fin f) eqn:Ff.
      * destruct Hf as [[-> _]|[_ Hf]]; [|discriminate].
        destruct (utf8_decode (f_data f)) as [t|e'] eqn:D; [discriminate|].
        injection R as ->. cbn [app flat_map]. rewrite app_nil_r.
        split; [intros [t Q]; apply utf8_decode_spec in Q; congruence|].
        unfold utf8_decode in D. destruct (u_end _); [discriminate|injection D as <-; eauto..].
      * unfold text_chunk in R. rewrite Ff in R.
        destruct (utf8_inc_decode [] (f_data f) false) as [p [t|e']] eqn:D; [discriminate|].
        injection R as ->. cbn [app flat_map].
        apply (inc_decode_fails [] [] [] (f_data f) false p e (flat_map f_data more) text_so_far_nil D).
        discriminate.
    + destruct Hc as ((g & r & Er & Hg) & Hu & Hs & _).
      rewrite (complete_continues _ _ _ Hm) in R by (rewrite Er; discriminate).
      unfold text_chunk in R.
      destruct (utf8_inc_decode pending (f_data f) (f_fin f)) as [p [t|e']] eqn:D;
        [destruct (f_fin f); discriminate|].
      injection R as ->. rewrite flat_map_app. cbn [flat_map].
      apply (inc_decode_fails _ _ _ _ _ _ _ _ Hs D).
      intros Ff. destruct Hf as [[-> _]|[_ Hf]]; [reflexivity|congruence].
    + destruct Hc as ((g & r & Er & Hg) & _). destruct Ht as (g' & r' & Eg' & Hg').
      rewrite Er in Eg'. injection Eg' as <- _. congruence.
Qed.

(* The fragments of a text message, however it's cut: *)
Definition text_message (frames : list frame) : Prop :=
  complete_message frames /\ exists f r, frames = f :: r /\ f_opcode f = TEXT.

Theorem C55_valid_text :
  forall cfg frames t,
    text_message frames -> utf8_text t (flat_map f_data frames) ->
    read_all cfg RFirst frames = RMsg (MText t).
Proof.
  intros cfg frames t [Hm Ht] Hu.
  assert (N : frames <> []) by (destruct Ht as (? & ? & -> & _); discriminate).
  pose proof (read_all_text cfg frames RFirst [] eq_refl Hm Ht N) as H. cbn [app] in H.
  destruct (read_all cfg RFirst frames) as [[t'|d]|c|e]; try contradiction.
  - f_equal. f_equal. apply utf8_decode_spec in H. apply utf8_decode_spec in Hu. congruence.
  - destruct H as [H _]. exfalso. apply H. now exists t.
Qed.
Theorem C55_invalid_text :
  forall cfg frames,
    text_message frames -> ~ valid_utf8 (flat_map f_data frames) ->
    exists reason pos, read_all cfg RFirst frames = RExn (UnicodeDecodeError reason pos).
Proof.
  intros cfg frames [Hm Ht] Hu.
  assert (N : frames <> []) by (destruct Ht as (? & ? & -> & _); discriminate).
  pose proof (read_all_text cfg frames RFirst [] eq_refl Hm Ht N) as H. cbn [app] in H.
  destruct (read_all cfg RFirst frames) as [[t'|d]|c|e]; try contradiction.
  - exfalso. apply Hu. now exists t'.
  - destruct H as (_ & reason & pos & ->). now exists reason, pos.
Qed.

Definition fragment (fin : bool) (op : opcode) (data : bytes) : frame :=
  {| f_fin := fin; f_opcode := op; f_data := data; f_rsv1 := false; f_rsv2 := false; f_rsv3 := false |}.
(* "é" cut in the middle; the same, truncated *)
Example C55_applies :
  text_message [fragment false TEXT (bs [195]); fragment false CONT []; fragment true CONT (bs [169; 33])] /\
  utf8_text [233; 33] (bs [195; 169; 33]) /\
  text_message [fragment false TEXT (bs [195]); fragment true CONT []] /\
  ~ valid_utf8 (bs [195]).
Proof.
  split.
  { split; [|now exists (fragment false TEXT (bs [195])), [fragment false CONT []; fragment true CONT (bs [169; 33])]].
    right. exists [fragment false TEXT (bs [195]); fragment false CONT []], (fragment true CONT (bs [169; 33])).
    split; [reflexivity|]. split; [|split; reflexivity].
    exists (fragment false TEXT (bs [195])), [fragment false CONT []].
    split; [reflexivity|]. split; [now left|]. split; [discriminate|].
    constructor; [split; [reflexivity|discriminate]|constructor]. }
  split; [now apply utf8_decode_spec|]. split.
  { split; [|now exists (fragment false TEXT (bs [195])), [fragment true CONT []]].
    right. exists [fragment false TEXT (bs [195])], (fragment true CONT []).
    split; [reflexivity|]. split; [|split; reflexivity].
    exists (fragment false TEXT (bs [195])), [].
    split; [reflexivity|]. split; [now left|]. split; [discriminate|constructor]. }
  intros [t H]. apply utf8_decode_spec in H. discriminate.
Qed.

(* ---- C56 ---- *)

(* p_in: the frames received; p_delivered: the messages returned by recv(), with the number of the
   call that returned each one; p_messages: the messages in the queue.

   The data frames received are the frames of the messages that recv() returned, then those of the
   messages in the queue, then the frames of a message that isn't complete, or that is complete
   but waits for room in the queue.  Each message is the concatenation of its fragments and has the
   type of its first frame. *)
Theorem C56_messages :
  forall E (X : ext_ops E) cfg exts ls st,
    execution X cfg exts ls st ->
    exists done rest,
      data_frames (p_in st) = concat done ++ rest /\
      Forall complete_message done /\
      Forall2 carries done (map snd (p_delivered st) ++ p_messages st) /\
      ((forall e, p_T st <> TDone e) ->
         rest = [] \/ unfinished_message rest \/
         exists m w, p_T st = TPut m w /\ complete_message rest /\ carries rest m).
Proof.
  intros E X cfg exts ls st H. destruct (Recv_exec X cfg exts ls st H) as (_ & _ & _ & (done & rest & D1 & D2 & D3 & D4) & _).
  exists done, rest. split; [exact D1|]. split; [revert D2; apply Forall_impl; tauto|]. split; [exact D3|].
  intros N. destruct (p_T st) eqn:ET; cbn [tail] in D4.
  1-6: try (left; exact D4); apply context_begun in D4; tauto.
  - right. right. exists m, w. tauto.
  - now contradiction (N e).
Qed.

(* Without extensions, the frames are those on the wire and messages are within the size limit. *)
Theorem C56_wire :
  forall cfg ls (st : conn Empty_set),
    execution no_ext cfg [] ls st ->
    exists wires unread done rest,
      received ls = concat wires ++ unread /\
      Forall2 (wire_frame cfg) (p_in st) wires /\
      data_frames (p_in st) = concat done ++ rest /\
      Forall complete_message done /\
      Forall (fun m => fits (c_max_size cfg) (message_size m)) done /\
      Forall2 carries done (map snd (p_delivered st) ++ p_messages st).
Proof.
  intros cfg ls st H.
  assert (N : forall l : list Empty_set, l = []) by (intros [|[] ?]; reflexivity).
  destruct (Wire_exec no_ext cfg [] ls st N H) as (ws & unread & W1 & W2 & _).
  destruct (Recv_exec no_ext cfg [] ls st H) as (_ & _ & _ & (done & rest & D1 & D2 & D3 & D4) & _).
  exists ws, unread, done, rest. split; [exact W1|]. split; [exact W2|]. split; [exact D1|].
  split; [revert D2; apply Forall_impl; tauto|]. split; [|exact D3].
  revert D2. apply Forall_impl. intros m [_ Q]. now apply Q.
Qed.

(* a text message in two fragments, with a ping in between, then a binary message *)
Definition ex_two_messages : list label :=
  [LOpen; LData (bs [1; 1; 195; 137; 0; 128]); LCall CallRecv; LUser 0 Go; LT Go; LT Go; LT DrainOk;
   LData (bs [1; 169; 130; 1; 98]); LT Go; LUser 0 Go; LCall CallRecv; LUser 1 Go; LT Go; LUser 1 Go].
Example C56_applies :
  exists st, execution no_ext ex_config [] ex_two_messages st /\
  match p_delivered st, p_in st with
  | [(0%nat, MText [233]); (1%nat, MBinary _)], [_; _; _; _] => true
  | _, _ => false
  end = true.
Proof. apply by_executing. vm_compute. reflexivity. Qed.

(* ---- C57 ---- *)

(* Each message is returned once: the messages in p_delivered are those that calls returned. *)
Theorem C57_returned_once :
  forall E (X : ext_ops E) cfg exts ls st,
    execution X cfg exts ls st ->
    NoDup (map fst (p_delivered st)) /\
    forall i m, In (i, m) (p_delivered st) <->
      exists cancelled, nth_error (p_users st) i = Some (UDone (RMessage m), cancelled).
Proof. intros E X cfg exts ls st H. now destruct (Recv_exec X cfg exts ls st H) as (_ & _ & _ & _ & D). Qed.

(* Messages are put in the queue in the order in which they're received and are only taken from it,
   in the same order, by calls that return them.  Thus cancelling a call loses nothing. *)
Theorem C57_first_in_first_out :
  forall E (X : ext_ops E) cfg exts ls st l st',
    execution X cfg exts ls st -> step X cfg st l = Some st' ->
    (p_delivered st' = p_delivered st /\ exists new, p_messages st' = p_messages st ++ new) \/
    (exists i a m cancelled, l = LUser i a /\ p_messages st = m :: p_messages st' /\
       p_delivered st' = p_delivered st ++ [(i, m)] /\
       nth_error (p_users st') i = Some (UDone (RMessage m), cancelled)).
Proof.
  intros E X cfg exts ls st l st' H S1.
  destruct (Recv_exec X cfg exts ls st H) as (_ & R1 & R2 & R3 & R4). clear H.
  assert (Same : p_delivered st' = p_delivered st -> p_messages st' = p_messages st ->
    (p_delivered st' = p_delivered st /\ exists new, p_messages st' = p_messages st ++ new)).
  { intros A1 A2. split; [exact A1|]. exists []. now rewrite app_nil_r. }
  destruct l; cbn [step] in S1.
  - left. destruct (p_state st); try discriminate. destruct (p_C st); try discriminate.
    apply some_inj in S1 as <-. now apply Same.
  - left. destruct (fail_connection _ _ _ _) as [st2 e2] eqn:F. apply some_inj in S1 as <-. shapes.
    now apply Same.
  - left. destruct (r_eof _); [discriminate|]. apply some_inj in S1 as <-. now apply Same.
  - left. destruct (r_eof _); [discriminate|]. apply some_inj in S1 as <-. now apply Same.
  - left. destruct (p_state st); try discriminate; apply some_inj in S1 as <-;
      destruct (connection_lost_shape st o closing) as (? & ? & ? & ? & ? & Q);
      apply Same; now rewrite Q.
  - left. apply some_inj in S1 as <-. now apply Same.
  - left. apply some_inj in S1 as <-. now apply Same.
  - left. apply some_inj in S1 as <-. now apply Same.
  - left. destruct (nth_error _ _) as [[pc ?]|] eqn:Hi; [|discriminate].
    destruct pc; try discriminate; apply some_inj in S1 as <-; now apply Same.
  - left. destruct (step_T_tq X cfg st a st' R1 R2 S1) as (A1 & [_ A2] & _).
    destruct A1 as [? ? M|? ? ? ? M|m ? ? ? ? M|? ? ? ? ? ? M|? ? ? ? ? ? M|? ? ? ? ? ? ? ? M
                   |? ? m ? ? ? ? ? [[_ M]|(w & _ & M)]|? ? ? ? ? ? M]; try (now apply Same);
      (split; [exact A2|now exists [m]]).
  - left. apply step_K_shape in S1 as (? & ? & ? & ? & ? & ? & ? & ? & ->). now apply Same.
  - left. apply step_C_shape in S1 as (? & ? & ? & ? & ? & ->). now apply Same.
  - destruct (step_user_uq X cfg st i a st' R1 S1) as (U & pc0 & c0 & Hi & Hpc).
    destruct U as [pc W M D U N _|m W M D U _]; [left; now apply Same|right].
    exists i, a, m, false. split; [reflexivity|]. split; [exact M|]. split; [exact D|].
    rewrite U. apply nth_error_replace_eq. apply nth_error_Some. congruence.
Qed.

(* A message that waits for room in the queue goes on waiting or is put in the queue, unless the
   task that reads messages is cancelled. *)
Theorem C57_message_in_hand :
  forall E (X : ext_ops E) cfg exts ls st l st' m w,
    execution X cfg exts ls st -> step X cfg st l = Some st' -> p_T st = TPut m w ->
    p_Tcancel st = false ->
    (exists w', p_T st' = TPut m w') \/
    (p_T st' = TRead RFirst /\ p_messages st' = p_messages st ++ [m]).
Proof.
  intros E X cfg exts ls st l st' m w H S1 HT Hc.
  destruct (Recv_exec X cfg exts ls st H) as (B & R1 & R2 & R3 & R4). clear H.
  assert (D : (exists a, l = LT a) \/ (l <> LOpen /\ forall a, l <> LT a)).
  { destruct l; try (right; split; [discriminate|intros ?; discriminate]); [|left; eauto].
    exfalso. cbn [step] in S1. destruct (p_state st) eqn:Es; try discriminate.
    destruct (p_C st); try discriminate. destruct B as (_ & _ & _ & S0). revert Es. apply S0. congruence. }
  destruct D as [(a & ->)|[D1 D2]].
  - cbn [step] in S1.
    destruct (step_T_tq X cfg st a st' R1 R2 S1) as (A1 & _).
    destruct A1 as [[e A] ? M|? C ? ? M|m' ? A ? ? M|m' ? w' A ? ? M|? ? A ? ? ? M|? ? ? A ? ? ? ? M
                   |? ? ? A ? ? ? ? ?|? ? A ? ? ? M]; try congruence.
    + exfalso. unfold step_T in S1. rewrite HT, Hc in S1. destruct a; try discriminate.
      destruct (fut_done _); [|discriminate]. apply some_inj in S1 as <-.
      unfold Put in R2. cbn in *.
      destruct (put_message_facts X cfg (set_put None st) m) as (_ & _ & _ & F); [|reflexivity|].
      { destruct R1 as [R1a R1b]. split; [discriminate|exact R1b]. }
      destruct F as [[F _]|(? & F & _)]; congruence.
    + rewrite HT in C. discriminate.
    + right. split; congruence.
    + left. exists w'. congruence.
  - destruct (step_T_alone X cfg st l st' S1 D2 D1) as [A _]. left. exists w. congruence.
Qed.

(* When a message is available and no other call waits for one, recv() returns it at once. *)
Theorem C57_available :
  forall E (X : ext_ops E) cfg exts ls st i m rest,
    execution X cfg exts ls st ->
    nth_error (p_users st) i = Some (UStart CallRecv, false) -> p_pop st = None ->
    p_messages st = m :: rest ->
    exists st', step X cfg st (LUser i Go) = Some st' /\ p_messages st' = rest /\
      nth_error (p_users st') i = Some (UDone (RMessage m), false).
Proof.
  intros E X cfg exts ls st i m rest H Hi Hp Hm.
  destruct (Recv_exec X cfg exts ls st H) as (B & (R1 & R1') & R2 & R3 & R4). clear H.
  assert (L : (i < length (p_users st))%nat) by (apply nth_error_Some; congruence).
  cbn [step]. unfold step_user. rewrite Hi. unfold step_call, start_call. rewrite Hp. unfold recv_loop. rewrite Hm.
  change (p_put (set_messages rest st)) with (p_put st).
  change (p_puts (set_messages rest st)) with (p_puts st).
  destruct (p_put st) as [w|] eqn:Ep.
  - rewrite (set_result_pending _ _ (R1 w eq_refl)).
    eexists. split; [reflexivity|]. split; [reflexivity|]. now apply nth_error_replace_eq.
  - eexists. split; [reflexivity|]. split; [reflexivity|]. now apply nth_error_replace_eq.
Qed.

(* A call that waits is cancelled: the message it waited for goes to the next call. *)
Example C57_applies :
  exists st, execution no_ext ex_config []
    [LOpen; LCall CallRecv; LUser 0 Go; LData (bs [130; 1; 97]); LT Go; LCancel 0; LUser 0 Go;
     LData (bs [130; 1; 98]); LT Go; LCall CallRecv; LUser 1 Go; LT Go] st /\
  match p_delivered st, p_messages st, p_users st with
  | [(1%nat, MBinary x)], [MBinary y], [(UDone (RRaise CancelledError), _); (UDone (RMessage _), _)] =>
      bytes_eqb x (b "a") && bytes_eqb y (b "b")
  | _, _, _ => false
  end = true.
Proof. apply by_executing. vm_compute. reflexivity. Qed.

(* But when the task that reads messages is cancelled because the connection fails, the message in
   its hands is lost: two messages are received, recv() returns only one. *)
Theorem C57_message_in_hand_refuted :
  exists st, execution no_ext ex_config []
    [LOpen; LC Go; LData (bs [130; 1; 97]); LData (bs [130; 1; 98]); LT Go; LT Go; LFail 1011; LT Go;
     LLost None true; LC Go; LCall CallRecv; LUser 0 Go; LCall CallRecv; LUser 1 Go; LUser 1 Go] st /\
  match p_in st, p_delivered st, p_messages st, p_users st with
  | [_; _], [(0%nat, MBinary x)], [], [_; (UDone (RRaise _), _)] => bytes_eqb x (b "a")
  | _, _, _, _ => false
  end = true.
Proof. apply by_executing. vm_compute. reflexivity. Qed.

Print Assumptions C55_valid_text.
Print Assumptions C55_invalid_text.
Print Assumptions C56_messages.
Print Assumptions C56_wire.
Print Assumptions C57_returned_once.
Print Assumptions C57_first_in_first_out.
Print Assumptions C57_message_in_hand.
Print Assumptions C57_available.
Print Assumptions C57_message_in_hand_refuted.
