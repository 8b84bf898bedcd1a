(* Messages returned by recv() are those carried by the frames received. *)
From Verif Require Import Base.Prelude Base.PreludeFacts Base.Utf8 Base.Utf8Facts Model.Streams Model.Frames
  Model.LegacyFraming Model.LegacyProtocol Spec.Utf8Spec Spec.FrameSpec Spec.Messages Spec.Asyncio
  Proofs.Utf8SpecFacts
  Proofs.LegacyPrims Proofs.LegacyFields Proofs.LegacyShapes Proofs.LegacyUsers Proofs.LegacyClose
  Proofs.LegacyQueue Properties.FrameCodec Proofs.FramesFacts.
Local Open Scope N_scope.

(** Incremental decoding *)

Definition text_so_far (bytes : bytes) (chunks : list str) (pending : Prelude.bytes) : Prop :=
  concat chunks = u_text (utf8_scan bytes) /\
  ((u_end (utf8_scan bytes) = Utf8.UDone /\ pending = []) \/ u_end (utf8_scan bytes) = UTrunc pending).

Lemma text_so_far_nil : text_so_far [] [] [].
Proof. split; [reflexivity|]. left. split; reflexivity. Qed.

Lemma scan_so_far bytes chunks pending chunk :
  text_so_far bytes chunks pending ->
  u_text (utf8_scan (bytes ++ chunk)) = concat chunks ++ u_text (utf8_scan (pending ++ chunk)) /\
  u_end (utf8_scan (bytes ++ chunk)) = u_end (utf8_scan (pending ++ chunk)).
Proof.
  intros [H1 [[H2 ->]|H2]]; rewrite utf8_scan_app, H2; cbn [u_text u_end app]; rewrite H1; split; reflexivity.
Qed.
Lemma inc_decode_next bytes chunks pending chunk p t :
  text_so_far bytes chunks pending -> utf8_inc_decode pending chunk false = (p, Ok t) ->
  text_so_far (bytes ++ chunk) (chunks ++ [t]) p.
Proof.
  intros H D. destruct (scan_so_far _ _ _ chunk H) as [A1 A2].
  unfold utf8_inc_decode in D. unfold text_so_far. rewrite A1, A2, concat_app. cbn [concat].
  destruct (u_end (utf8_scan (pending ++ chunk))) as [|r|why] eqn:Ue; try discriminate;
    apply pair_equal_spec in D as [<- D]; apply ok_inj in D as <-; rewrite app_nil_r.
  - split; [reflexivity|]. left. now split.
  - split; [reflexivity|]. now right.
Qed.
Lemma inc_decode_last bytes chunks pending chunk p t :
  text_so_far bytes chunks pending -> utf8_inc_decode pending chunk true = (p, Ok t) ->
  utf8_text (concat (chunks ++ [t])) (bytes ++ chunk).
Proof.
  intros H D. apply utf8_decode_spec. destruct (scan_so_far _ _ _ chunk H) as [A1 A2].
  unfold utf8_inc_decode in D. unfold utf8_decode. rewrite A1, A2, concat_app. cbn [concat].
  destruct (u_end (utf8_scan (pending ++ chunk))) as [|r|why] eqn:Ue; try discriminate.
  apply pair_equal_spec in D as [<- D]; apply ok_inj in D as <-. now rewrite app_nil_r.
Qed.
(* when decoding fails, no continuation makes the text valid *)
Lemma inc_decode_fails bytes chunks pending chunk fin p e more :
  text_so_far bytes chunks pending -> utf8_inc_decode pending chunk fin = (p, Raise e) ->
  (fin = true -> more = []) ->
  ~ valid_utf8 (bytes ++ chunk ++ more) /\ exists reason pos, e = UnicodeDecodeError reason pos.
Proof.
  intros H D Hm. destruct (scan_so_far _ _ _ chunk H) as [A1 A2].
  unfold utf8_inc_decode in D.
  destruct (u_end (utf8_scan (pending ++ chunk))) as [|r|why] eqn:Ue; [discriminate| |].
  - destruct fin; [|discriminate]. apply pair_equal_spec in D as [_ D]. rewrite (Hm eq_refl), app_nil_r.
    split; [|injection D as <-; eauto].
    intros [t Ht]. apply utf8_decode_spec in Ht. unfold utf8_decode in Ht. rewrite A2 in Ht. discriminate.
  - apply pair_equal_spec in D as [_ D]. split; [|injection D as <-; eauto].
    intros [t Ht]. apply utf8_decode_spec in Ht. unfold utf8_decode in Ht.
    rewrite app_assoc, utf8_scan_app, A2 in Ht. rewrite A2 in Ht. discriminate.
Qed.

Section Messages.
Context {E : Type} (X : ext_ops E) (cfg : config).
Implicit Type st : conn E.

(** read_message *)

(* c is the progress of read_message after it has read [rest] *)
Definition remaining (rest : list frame) : option Z :=
  match c_max_size cfg with Some m => Some (m - Z.of_nat (message_size rest))%Z | None => None end.
Definition context (c : rctx) (rest : list frame) : Prop :=
  match c with
  | RFirst => rest = []
  | RText chunks pending max =>
      (exists f r, rest = f :: r /\ f_opcode f = TEXT) /\ unfinished_message rest /\
      text_so_far (flat_map f_data rest) chunks pending /\ max = remaining rest
  | RBinary chunks max =>
      (exists f r, rest = f :: r /\ f_opcode f = BINARY) /\ unfinished_message rest /\
      concat chunks = flat_map f_data rest /\ max = remaining rest
  end.

Lemma context_begun c rest : context c rest -> rest = [] \/ unfinished_message rest.
Proof. destruct c; cbn [context]; tauto. Qed.
Lemma context_limit c rest : context c rest -> read_limit cfg c = remaining rest.
Proof.
  destruct c; cbn [context read_limit]; [|tauto|tauto]. intros ->. unfold remaining. cbn.
  destruct (c_max_size cfg); [f_equal; lia|reflexivity].
Qed.

Lemma unfinished_next rest f :
  unfinished_message rest -> f_opcode f = CONT -> f_fin f = false -> unfinished_message (rest ++ [f]).
Proof.
  intros (g & r & -> & H1 & H2 & H3) Hc Hf. exists g, (r ++ [f]). split; [reflexivity|].
  split; [exact H1|]. split; [exact H2|]. apply Forall_app. split; [exact H3|].
  constructor; [|constructor]. split; [exact Hc|]. unfold final. congruence.
Qed.
Lemma unfinished_last rest f :
  unfinished_message rest -> f_opcode f = CONT -> f_fin f = true -> complete_message (rest ++ [f]).
Proof. intros H Hc Hf. right. exists rest, f. auto. Qed.
Lemma remaining_next rest f : minus (remaining rest) (f_data f) = remaining (rest ++ [f]).
Proof.
  unfold minus, remaining. destruct (c_max_size cfg); [|reflexivity]. f_equal.
  unfold message_size. rewrite flat_map_app, app_length. cbn [flat_map]. rewrite app_nil_r.
  unfold lenZ. lia.
Qed.

Lemma read_message_spec c rest f :
  context c rest ->
  match read_message cfg c f with
  | RMsg m => complete_message (rest ++ [f]) /\ carries (rest ++ [f]) m
  | RNext c' => context c' (rest ++ [f])
  | RExn _ => True
  end.
Proof.
  intros H. destruct c as [|chunks pending max|chunks max]; cbn [context] in H.
  - subst rest. cbn [app read_message].
    assert (O : f_opcode f = TEXT \/ f_opcode f = BINARY -> f_fin f = true -> complete_message [f])
      by (intros; left; exists f; auto).
    assert (U : f_opcode f = TEXT \/ f_opcode f = BINARY -> f_fin f = false -> unfinished_message [f]).
    { intros Ho Hf. exists f, []. split; [reflexivity|]. split; [exact Ho|]. split; [|constructor].
      unfold final. congruence. }
    assert (R0 : minus (c_max_size cfg) (f_data f) = remaining [f]).
    { unfold minus, remaining, message_size. cbn [flat_map]. rewrite app_nil_r.
      destruct (c_max_size cfg); [f_equal; unfold lenZ; lia|reflexivity]. }
    destruct (f_opcode f) eqn:Op; try exact Logic.I.
    + destruct (f_fin f) eqn:Ff.
      * destruct (utf8_decode (f_data f)) as [t|e] eqn:D; [|exact Logic.I].
        split; [now apply O; [left|]|]. cbn [carries flat_map]. rewrite app_nil_r.
        split; [exact Op|]. now apply utf8_decode_spec.
      * unfold text_chunk. rewrite Ff.
        destruct (utf8_inc_decode [] (f_data f) false) as [p [t|e]] eqn:D; [|exact Logic.I].
        cbn [context]. split; [now exists f, []|]. split; [now apply U; [left|]|].
        cbn [flat_map]. rewrite app_nil_r. split; [|exact R0].
        exact (inc_decode_next [] [] [] _ _ _ text_so_far_nil D).
    + destruct (f_fin f) eqn:Ff.
      * split; [now apply O; [right|]|]. cbn [carries flat_map]. rewrite app_nil_r. now split.
      * unfold binary_chunk. rewrite Ff. cbn [context]. split; [now exists f, []|].
        split; [now apply U; [right|]|]. cbn [flat_map concat app]. split; [reflexivity|exact R0].
  - destruct H as ((g & r & Er & Hg) & Hu & Ht & Hm). cbn [read_message].
    destruct (f_opcode f) eqn:Op; try exact Logic.I. unfold text_chunk.
    destruct (f_fin f) eqn:Ff.
    + destruct (utf8_inc_decode pending (f_data f) true) as [p [t|e]] eqn:D; [|exact Logic.I].
      split; [now apply unfinished_last|]. rewrite Er. cbn [app carries]. split; [exact Hg|].
      change (g :: r ++ [f]) with ((g :: r) ++ [f]). rewrite <- Er, flat_map_app. cbn [flat_map].
      rewrite app_nil_r. exact (inc_decode_last _ _ _ _ _ _ Ht D).
    + destruct (utf8_inc_decode pending (f_data f) false) as [p [t|e]] eqn:D; [|exact Logic.I].
      cbn [context]. split; [exists g, (r ++ [f]); now rewrite Er|]. split; [now apply unfinished_next|].
      rewrite flat_map_app. cbn [flat_map]. rewrite app_nil_r.
      split; [exact (inc_decode_next _ _ _ _ _ _ Ht D)|]. rewrite Hm. apply remaining_next.
  - destruct H as ((g & r & Er & Hg) & Hu & Ht & Hm). cbn [read_message].
    destruct (f_opcode f) eqn:Op; try exact Logic.I. unfold binary_chunk.
    destruct (f_fin f) eqn:Ff.
    + split; [now apply unfinished_last|]. rewrite Er. cbn [app carries]. split; [exact Hg|].
      change (g :: r ++ [f]) with ((g :: r) ++ [f]). rewrite <- Er, flat_map_app, concat_app, Ht.
      reflexivity.
    + cbn [context]. split; [exists g, (r ++ [f]); now rewrite Er|]. split; [now apply unfinished_next|].
      rewrite flat_map_app, concat_app, Ht. split; [reflexivity|]. rewrite Hm. apply remaining_next.
Qed.

(** Steps of transfer_data *)

Definition ctx_of (t : tpc) : option rctx :=
  match t with
  | TRead c | TPongDrain c | TPongEnsure c | TCloseDrain c | TCloseEnsure c => Some c
  | _ => None
  end.

Definition no_extension : Prop := forall l : list E, l = [].
Definition sized (m : list frame) : Prop := no_extension -> fits (c_max_size cfg) (message_size m).
Definition within (c : rctx) (f : frame) : Prop := no_extension -> fits (read_limit cfg c) (length (f_data f)).
Lemma within_sized c rest f : context c rest -> within c f -> sized (rest ++ [f]).
Proof.
  intros Hc W N. specialize (W N). rewrite (context_limit _ _ Hc) in W. unfold fits, remaining in *.
  destruct (c_max_size cfg); [|exact W]. unfold message_size in *. rewrite flat_map_app, app_length.
  cbn [flat_map]. rewrite app_nil_r. lia.
Qed.

Definition settled (t : tpc) : Prop := exists e, t = TDone e.
Inductive tq st st' : Prop :=
| tq_stop : settled (p_T st') -> p_in st' = p_in st -> p_messages st' = p_messages st -> tq st st'
| tq_wait c : ctx_of (p_T st) = Some c -> ctx_of (p_T st') = Some c ->
    p_in st' = p_in st -> p_messages st' = p_messages st -> tq st st'
| tq_put m w : p_T st = TPut m w -> p_T st' = TRead RFirst -> p_in st' = p_in st ->
    p_messages st' = p_messages st ++ [m] -> tq st st'
| tq_put_wait m w w' : p_T st = TPut m w -> p_T st' = TPut m w' -> p_in st' = p_in st ->
    p_messages st' = p_messages st -> tq st st'
| tq_control c f : p_T st = TRead c -> p_in st' = p_in st ++ [f] -> is_data_b f = false ->
    ctx_of (p_T st') = Some c \/ settled (p_T st') -> p_messages st' = p_messages st -> tq st st'
| tq_next c f c' : p_T st = TRead c -> p_in st' = p_in st ++ [f] -> is_data_b f = true ->
    read_message cfg c f = RNext c' -> p_T st' = TRead c' -> p_messages st' = p_messages st -> tq st st'
| tq_message c f m : p_T st = TRead c -> p_in st' = p_in st ++ [f] -> is_data_b f = true ->
    read_message cfg c f = RMsg m -> within c f ->
    (p_T st' = TRead RFirst /\ p_messages st' = p_messages st ++ [m]) \/
    (exists w, p_T st' = TPut m w /\ p_messages st' = p_messages st) -> tq st st'
| tq_error c f : p_T st = TRead c -> p_in st' = p_in st ++ [f] -> is_data_b f = true ->
    settled (p_T st') -> p_messages st' = p_messages st -> tq st st'.

Definition kept st st' : Prop := p_users st' = p_users st /\ p_delivered st' = p_delivered st.

Lemma put_message_facts st m :
  Waiters st -> p_put st = None ->
  let st' := put_message X cfg st m in
  Waiters st' /\ kept st st' /\ p_in st' = p_in st /\
  ((p_T st' = TRead RFirst /\ p_messages st' = p_messages st ++ [m]) \/
   (exists w, p_T st' = TPut m w /\ p_messages st' = p_messages st)).
Proof.
  intros [W1 W2] Hp. cbv zeta. unfold put_message. destruct (room cfg st).
  - change (p_pop (set_messages _ st)) with (p_pop st).
    change (p_pops (set_messages _ st)) with (p_pops st).
    destruct (p_pop st) as [w|] eqn:Ep.
    + rewrite (set_result_pending _ _ (W2 w eq_refl)).
      split; [split; [exact W1|discriminate]|]. split; [repeat split|]. split; [reflexivity|]. left. now split.
    + split; [split; [exact W1|]|].
      { cbn [p_pop set_T set_messages]. rewrite Ep. discriminate. }
      split; [repeat split|]. split; [reflexivity|]. left. now split.
  - split; [split; [|exact W2]|].
    { intros w H. apply some_inj in H as <-. apply pending_new. }
    split; [repeat split|]. split; [reflexivity|]. right. now exists (length (p_puts st)).
Qed.

Lemma step_T_tq st a st' :
  Waiters st -> (match p_T st with TPut _ _ => True | _ => p_put st = None end) ->
  step_T X cfg st a = Some st' ->
  tq st st' /\ kept st st' /\ Waiters st' /\
  (match p_T st' with TPut _ _ => True | _ => p_put st' = None end).
Proof.
  intros W Hput H.
  set (goal st' := tq st st' /\ kept st st' /\ Waiters st' /\
        (match p_T st' with TPut _ _ => True | _ => p_put st' = None end)).
  change (goal st').
  assert (Rs : forall st1 e, p_in st1 = p_in st -> p_messages st1 = p_messages st -> kept st st1 ->
             Waiters st1 -> p_put st1 = None -> goal (T_raise X cfg st1 e)).
  { intros st1 e A1 A2 [A3 A4] A5 A6. 
    destruct (T_raise_shape X cfg st1 e) as (t & ? & ? & ? & ? & ? & ->).
    split; [apply tq_stop; [now exists t|exact A1|exact A2]|]. split; [split; assumption|].
    split; [exact A5|exact A6]. }
  assert (Ac : forall st1 e, p_in st1 = p_in st -> p_messages st1 = p_messages st -> kept st st1 ->
             Waiters st1 -> p_put st1 = None -> goal (after_close X cfg st1 e)).
  { intros st1 e A1 A2 [A3 A4] A5 A6. 
    destruct (after_close_shape X cfg st1 e) as (t & ? & ? & ? & ? & ? & ->).
    split; [apply tq_stop; [now exists t|exact A1|exact A2]|]. split; [split; assumption|].
    split; [exact A5|exact A6]. }
  unfold step_T in H.
  destruct (p_T st) as [|c|c|c|c|c|m w|e] eqn:HT; try discriminate; (destruct (p_Tcancel st);
    [destruct a; try discriminate; apply some_inj in H as <-;
     apply Rs; try reflexivity; try (repeat split; fail); try exact W; try exact Hput;
     try (split; [discriminate|apply W])|]).
  - (* TRead *)
    destruct a; try discriminate. unfold read_frame in H.
    assert (G : match run (legacy_read X (negb (c_client cfg)) (read_limit cfg c)) (p_reader st) (p_exts st) with
        | OSusp _ _ _ => None
        | OFail e r exts => Some (T_raise X cfg (set_reader r (set_exts exts st)) (PyExn e))
        | ODone f r exts =>
          let st := set_in (p_in st ++ [f]) (set_reader r (set_exts exts st)) in
          Some (on_frame X cfg st c f)
        end = Some st' -> goal st').
    { clear H. destruct (run _ _ _) as [? ? ?|f r ex|e r ex] eqn:Run; cbv zeta; try discriminate; intros H;
        apply some_inj in H as <-; [|apply Rs; try reflexivity; try (repeat split; fail); [exact W|exact Hput]].
      assert (Wi : within c f).
      { intros N. rewrite (N (p_exts st)) in Run. destruct (p_reader st) as [bs eof].
        change (legacy_read X) with (frame_parse X) in Run.
        apply C05_accepted_frames_were_received in Run as (w & key & _ & _ & _ & _ & Q). exact Q. }
      set (st1 := set_in _ _). unfold on_frame.
      assert (Ctl : forall st2, is_data_b f = false ->
        ctx_of (p_T st2) = Some c \/ settled (p_T st2) ->
        p_in st2 = p_in st1 -> p_messages st2 = p_messages st -> kept st st2 ->
        Waiters st2 -> p_put st2 = None -> goal st2).
      { intros st2 D A0 A1 A2 A3 A4 A5. split; [now apply (tq_control _ _ c f)|]. split; [exact A3|].
        split; [exact A4|]. rewrite A5. now destruct (p_T st2). }
      assert (CtlR : forall st2 e, is_data_b f = false ->
        p_in st2 = p_in st1 -> p_messages st2 = p_messages st -> kept st st2 ->
        Waiters st2 -> p_put st2 = None -> goal (T_raise X cfg st2 e)).
      { intros st2 e D A1 A2 A3 A4 A5.
        destruct (T_raise_shape X cfg st2 e) as (t & ? & ? & ? & ? & ? & ->).
        apply Ctl; try assumption. right. now exists t. }
      assert (Data : is_data_b f = true ->
        goal match read_message cfg c f with
             | RMsg m => put_message X cfg st1 m
             | RNext c => set_T (TRead c) st1
             | RExn e => T_raise X cfg st1 (PyExn e)
             end).
      { intros D. destruct (read_message cfg c f) as [m|c'|e] eqn:Rm.
        - destruct (put_message_facts st1 m W Hput) as (A1 & A2 & A3 & A4).
          split; [apply (tq_message _ _ c f m); try assumption|]. split; [exact A2|]. split; [exact A1|].
          unfold put_message in *. destruct (room cfg st1); [|exact Logic.I].
          change (p_pop (set_messages _ st1)) with (p_pop st) in *.
          change (p_pops (set_messages _ st1)) with (p_pops st) in *.
          destruct (p_pop st) as [w|] eqn:Ep; [|exact Hput].
          rewrite (set_result_pending _ _ (proj2 W w Ep)). exact Hput.
        - split; [apply (tq_next _ _ c f c'); try assumption; reflexivity|].
          split; [repeat split|]. split; [exact W|exact Hput].
        - destruct (T_raise_shape X cfg st1 (PyExn e)) as (t & ? & ? & ? & ? & ? & ->).
          split; [apply (tq_error _ _ c f); try assumption; try reflexivity; now exists t|].
          split; [repeat split|]. split; [exact W|exact Hput]. }
      unfold is_data_b in Ctl, CtlR, Data.
      destruct (f_opcode f) eqn:Op; try (now apply Data); clear Data.
      - destruct (parse_close (f_data f)) as [x|e]; [|now apply CtlR].
        destruct (write_close_frame _ _ _ _ _) as [st2 rr] eqn:Wc. shapes.
        destruct rr as [[e|]|].
        + now apply CtlR.
        + apply Ctl; try reflexivity; try (repeat split; fail); [now left|exact W|exact Hput].
        + destruct (after_close_shape X cfg (set_out x0 (set_exts x1 (set_state x2 (set_close (Some x) st1)))) c)
            as (t & ? & ? & ? & ? & ? & ->).
          apply Ctl; try reflexivity; try (repeat split; fail); [right; now exists t|exact W|exact Hput].
      - destruct (ensure_open st1).
        + destruct (write_frame _ _ _ _ _ _ _ _) as [st2 e] eqn:Wf. shapes. destruct e.
          * now apply CtlR.
          * apply Ctl; try reflexivity; try (repeat split; fail); [now left|exact W|exact Hput].
        + now apply CtlR.
        + apply Ctl; try reflexivity; try (repeat split; fail); [now left|exact W|exact Hput].
      - destruct (receive_pong_shape st1 (f_data f)) as (? & ? & ->).
        apply Ctl; try reflexivity; try (repeat split; fail); [now left|exact W|exact Hput]. }
    destruct (p_lost st) as [[o|]|] eqn:L; [|now apply G|now apply G].
    apply some_inj in H as <-. apply Rs; try reflexivity; try (repeat split; fail); [exact W|exact Hput].
  - destruct (after_drain X cfg st a) as [[st2 r]|] eqn:D; [|discriminate]. shapes.
    destruct r; apply some_inj in H as <-.
    + split; [apply (tq_wait _ _ c); try reflexivity; now rewrite HT|]. split; [repeat split|].
      split; [exact W|exact Hput].
    + apply Rs; try reflexivity; try (repeat split; fail); [exact W|exact Hput].
    + split; [apply (tq_wait _ _ c); try reflexivity; now rewrite HT|]. split; [repeat split|].
      split; [exact W|exact Hput].
  - destruct a; try discriminate. destruct (ensure_open_end st); [|discriminate].
    apply some_inj in H as <-. apply Rs; try reflexivity; try (repeat split; fail); [exact W|exact Hput].
  - destruct (after_drain X cfg st a) as [[st2 r]|] eqn:D; [|discriminate]. shapes.
    destruct r; apply some_inj in H as <-.
    + apply Ac; try reflexivity; try (repeat split; fail); [exact W|exact Hput].
    + destruct (is_closed_exn e); [apply Ac|apply Rs]; try reflexivity; try (repeat split; fail);
        try exact W; exact Hput.
    + split; [apply (tq_wait _ _ c); try reflexivity; now rewrite HT|]. split; [repeat split|].
      split; [exact W|exact Hput].
  - destruct a; try discriminate. destruct (ensure_open_end st); [|discriminate].
    apply some_inj in H as <-. destruct (is_closed_exn p); [apply Ac|apply Rs];
      try reflexivity; try (repeat split; fail); try exact W; exact Hput.
  - destruct a; try discriminate. destruct (fut_done _); [|discriminate]. apply some_inj in H as <-.
    destruct (put_message_facts (set_put None st) m) as (A1 & A2 & A3 & A4);
      [split; [discriminate|apply W]|reflexivity|].
    split; [|split; [exact A2|]].
    + destruct A4 as [[B1 B2]|(w' & B1 & B2)]; [now apply (tq_put _ _ m w)|now apply (tq_put_wait _ _ m w w')].
    + split; [exact A1|]. destruct A4 as [[B1 B2]|(w' & B1 & B2)]; rewrite B1; [|exact Logic.I].
      unfold put_message in *. destruct (room cfg _); [|discriminate B1].
      change (p_pop (set_messages _ (set_put None st))) with (p_pop st) in *.
      change (p_pops (set_messages _ (set_put None st))) with (p_pops st) in *.
      destruct (p_pop st) as [w0|] eqn:Ep; [|reflexivity].
      rewrite (set_result_pending _ _ (proj2 W w0 Ep)). reflexivity.
Qed.

(** The invariant *)

Definition last_data (ins : list frame) : Prop := exists l f, ins = l ++ [f] /\ is_data_b f = true.
Definition tail (t : tpc) (ins rest : list frame) : Prop :=
  match t with
  | TNone => rest = []
  | TRead c | TPongDrain c | TPongEnsure c | TCloseDrain c | TCloseEnsure c => context c rest
  | TPut m _ => ((complete_message rest /\ sized rest) /\ carries rest m) /\ last_data ins
  | TDone _ => rest = [] \/ unfinished_message rest \/
               (exists l f, rest = l ++ [f] /\ (l = [] \/ unfinished_message l)) /\ last_data ins
  end.
Definition Msgs st : Prop :=
  exists done rest,
    data_frames (p_in st) = concat done ++ rest /\ Forall (fun m => complete_message m /\ sized m) done /\
    Forall2 carries done (map snd (p_delivered st) ++ p_messages st) /\ tail (p_T st) (p_in st) rest.
Definition Put st : Prop := match p_T st with TPut _ _ => True | _ => p_put st = None end.
Definition Delivered st : Prop :=
  NoDup (map fst (p_delivered st)) /\
  forall i m, In (i, m) (p_delivered st) <->
    exists c, nth_error (p_users st) i = Some (UDone (RMessage m), c).

Lemma tail_ctx t c ins rest : ctx_of t = Some c -> (tail t ins rest <-> context c rest).
Proof. destruct t; cbn [ctx_of]; intros H; try discriminate; apply some_inj in H as <-; reflexivity. Qed.
Lemma complete_begun m : complete_message m ->
  exists l f, m = l ++ [f] /\ (l = [] \/ unfinished_message l).
Proof.
  intros [(f & -> & _)|(m' & g & -> & H & _)]; [exists [], f; auto|exists m', g; auto].
Qed.
Lemma tail_stop t ins rest : tail t ins rest -> forall e, tail (TDone e) ins rest.
Proof.
  intros H e. cbn [tail].
  assert (C : forall c, context c rest -> rest = [] \/ unfinished_message rest \/
               (exists l f, rest = l ++ [f] /\ (l = [] \/ unfinished_message l)) /\ last_data ins)
    by (intros c Hc; apply context_begun in Hc; tauto).
  destruct t; cbn [tail] in H; eauto.
  right. right. split; [now apply complete_begun, H|apply H].
Qed.

Lemma Forall2_snoc {A B} (R : A -> B -> Prop) l1 l2 x y :
  Forall2 R l1 l2 -> R x y -> Forall2 R (l1 ++ [x]) (l2 ++ [y]).
Proof. intros H1 H2. apply Forall2_app; [exact H1|]. constructor; [exact H2|constructor]. Qed.

Lemma Msgs_T st st' : Msgs st -> tq st st' -> kept st st' -> Msgs st'.
Proof.
  intros (done & rest & M1 & M2 & M3 & M4) H [K1 K2]. unfold Msgs. rewrite K2.
  assert (Dt : forall f, is_data_b f = true -> data_frames (p_in st ++ [f]) = data_frames (p_in st) ++ [f]).
  { intros f D. unfold data_frames. rewrite filter_app. cbn [filter]. now rewrite D. }
  assert (Dc : forall f, is_data_b f = false -> data_frames (p_in st ++ [f]) = data_frames (p_in st)).
  { intros f D. unfold data_frames. rewrite filter_app. cbn [filter]. now rewrite D, app_nil_r. }
  destruct H as [[e A1] A2 A3|c A1 A2 A3 A4|m w A1 A2 A3 A4|m w w' A1 A2 A3 A4|c f A1 A2 A3 A4 A5
                |c f c' A1 A2 A3 A4 A5 A6|c f m A1 A2 A3 A4 Wi A5|c f A1 A2 A3 [e A4] A5].
  - exists done, rest. rewrite A2, A3, A1. do 3 (split; [assumption|]). eapply tail_stop, M4.
  - exists done, rest. rewrite A3, A4. do 3 (split; [assumption|]).
    apply (tail_ctx _ _ _ _ A2). now apply (tail_ctx _ _ _ _ A1) in M4.
  - rewrite A1 in M4. destruct M4 as [[M4 M5] _]. exists (done ++ [rest]), [].
    rewrite A2, A3, A4. cbn [tail context]. rewrite concat_app. cbn [concat]. rewrite !app_nil_r.
    split; [exact M1|]. split; [apply Forall_app; split; [exact M2|constructor; [exact M4|constructor]]|].
    split; [|reflexivity]. rewrite app_assoc. now apply Forall2_snoc.
  - rewrite A1 in M4. exists done, rest. rewrite A2, A3, A4. do 3 (split; [assumption|]). exact M4.
  - rewrite A1 in M4. exists done, rest. rewrite A2, (Dc f A3), A5. do 3 (split; [assumption|]).
    destruct A4 as [A4|[e A4]]; [now apply (tail_ctx _ _ _ _ A4)|rewrite A4; eapply (tail_stop (TRead c)); exact M4].
  - rewrite A1 in M4. cbn [tail] in M4. pose proof (read_message_spec c rest f M4) as R. rewrite A4 in R.
    exists done, (rest ++ [f]). rewrite A2, (Dt f A3), A5, A6. cbn [tail].
    split; [rewrite M1; now rewrite app_assoc|]. do 2 (split; [assumption|]). exact R.
  - rewrite A1 in M4. cbn [tail] in M4. pose proof (read_message_spec c rest f M4) as R. rewrite A4 in R.
    destruct R as [R1' R2].
    assert (R1 : complete_message (rest ++ [f]) /\ sized (rest ++ [f]))
      by (split; [exact R1'|now apply (within_sized c)]).
    destruct A5 as [[B1 B2]|(w & B1 & B2)].
    + exists (done ++ [rest ++ [f]]), []. rewrite A2, (Dt f A3), B1, B2. cbn [tail context].
      rewrite concat_app. cbn [concat]. rewrite !app_nil_r.
      split; [rewrite M1; now rewrite <- app_assoc|].
      split; [apply Forall_app; split; [exact M2|constructor; [exact R1|constructor]]|].
      split; [|reflexivity]. rewrite app_assoc. now apply Forall2_snoc.
    + exists done, (rest ++ [f]). rewrite A2, (Dt f A3), B1, B2. cbn [tail].
      split; [rewrite M1; now rewrite app_assoc|]. do 2 (split; [assumption|]).
      split; [split; assumption|]. now exists (p_in st), f.
  - rewrite A1 in M4. cbn [tail] in M4. exists done, (rest ++ [f]). rewrite A2, (Dt f A3), A4, A5.
    split; [rewrite M1; now rewrite app_assoc|]. do 2 (split; [assumption|]). cbn [tail].
    right. right. split; [|now exists (p_in st), f].
    exists rest, f. split; [reflexivity|]. eapply context_begun, M4.
Qed.

Definition Recv st : Prop := Waiters st /\ Put st /\ Msgs st /\ Delivered st.

Lemma Delivered_same st st' :
  p_users st' = p_users st -> p_delivered st' = p_delivered st -> Delivered st -> Delivered st'.
Proof. unfold Delivered. now intros -> ->. Qed.
Lemma Recv_quiet st st' :
  p_users st' = p_users st -> p_delivered st' = p_delivered st -> p_messages st' = p_messages st ->
  p_put st' = p_put st -> p_puts st' = p_puts st -> p_pop st' = p_pop st -> p_pops st' = p_pops st ->
  p_T st' = p_T st -> p_in st' = p_in st -> Recv st -> Recv st'.
Proof.
  intros A1 A2 A3 A4 A5 A6 A7 A8 A9 (R1 & R2 & R3 & R4). unfold Recv, Waiters, Put, Msgs, Delivered.
  rewrite A1, A2, A3, A4, A5, A6, A7, A8, A9. auto.
Qed.

Lemma Recv_user st i a st' :
  Recv st -> step_user X cfg st i a = Some st' -> Recv st'.
Proof.
  intros (R1 & R2 & R3 & R4) H. pose proof (step_user_still X cfg _ _ _ _ H) as (S1 & S2 & _).
  destruct (step_user_uq X cfg st i a st' R1 H) as (U & pc0 & c0 & Hi & Hpc).
  assert (Len : (i < length (p_users st))%nat) by (apply nth_error_Some; congruence).
  assert (P' : Put st').
  { (* only transfer_data waits for a place in the queue *)
    unfold Put in *. rewrite S1. destruct (p_T st) eqn:HT; try exact Logic.I;
    (destruct U as [? ? ? ? ? ? [Q|Q]|? ? ? ? ? [Q|Q]]; congruence). }
  destruct U as [pc W M D U N _|m W M D U _].
  - split; [exact W|]. split; [exact P'|].
    split; [unfold Msgs; rewrite S1, S2, M, D; exact R3|].
    destruct R4 as [R4 R5]. split; [now rewrite D|]. intros j m. rewrite D, (R5 j m), U.
    destruct (Nat.eq_dec i j) as [<-|Hij].
    + rewrite nth_error_replace_eq by exact Len. rewrite Hi. split; intros [c Q].
      * exfalso. injection Q as Q _. now apply (Hpc (RMessage m)).
      * exfalso. injection Q as Q _. now apply (N m).
    + now rewrite nth_error_replace_neq by exact Hij.
  - split; [exact W|]. split; [exact P'|]. split.
    { unfold Msgs. rewrite S1, S2, D. destruct R3 as (done & rest & M1 & M2 & M3 & M4).
      exists done, rest. do 2 (split; [assumption|]). split; [|exact M4].
      rewrite map_app. cbn [map snd]. rewrite <- app_assoc. cbn [app]. now rewrite <- M. }
    destruct R4 as [R4 R5]. split.
    + rewrite D, map_app. cbn [map fst]. apply NoDup_snoc; [exact R4|]. intros Q.
      apply in_map_iff in Q as ([j m'] & E0 & Q). cbn [fst] in E0. subst j.
      apply R5 in Q as [c Q]. rewrite Hi in Q. injection Q as Q _. now apply (Hpc (RMessage m')).
    + intros j m'. rewrite D, in_app_iff, (R5 j m'), U. cbn [In].
      destruct (Nat.eq_dec i j) as [<-|Hij].
      * rewrite nth_error_replace_eq by exact Len. rewrite Hi. split.
        -- intros [[c Q]|[Q|[]]].
           ++ exfalso. injection Q as Q _. now apply (Hpc (RMessage m')).
           ++ exists false. congruence.
        -- intros [c Q]. right. left. congruence.
      * rewrite nth_error_replace_neq by exact Hij. split; [|tauto].
        intros [?|[Q|[]]]; [assumption|]. congruence.
Qed.

Lemma nth_error_replace_users (users : list (upc * bool)) i j pc c c' x :
  nth_error users i = Some (pc, c) -> (forall r, pc <> UDone r) ->
  (exists d, nth_error (replace i (pc, c') users) j = Some (UDone x, d)) <->
  (exists d, nth_error users j = Some (UDone x, d)).
Proof.
  intros H N. assert (L : (i < length users)%nat) by (apply nth_error_Some; congruence).
  destruct (Nat.eq_dec i j) as [<-|Hij].
  - rewrite nth_error_replace_eq by exact L. rewrite H.
    split; intros [d Q]; injection Q as Q _; exfalso; exact (N _ Q).
  - now rewrite nth_error_replace_neq by exact Hij.
Qed.
Lemma Recv_users st users :
  Recv st ->
  (forall j x, (exists d, nth_error users j = Some (UDone x, d)) <->
               (exists d, nth_error (p_users st) j = Some (UDone x, d))) ->
  Recv (set_users users st).
Proof.
  intros (R1 & R2 & R3 & R4 & R5) H. split; [exact R1|]. split; [exact R2|]. split; [exact R3|].
  split; [exact R4|]. intros j m. cbn [p_delivered p_users set_users]. now rewrite H.
Qed.

Lemma Recv_step st l st' : Base st -> Recv st -> step X cfg st l = Some st' -> Recv st'.
Proof.
  intros B R H. destruct l; cbn [step] in H.
  - destruct (p_state st) eqn:Es; try discriminate. destruct (p_C st); try discriminate.
    apply some_inj in H as <-.
    assert (HT : p_T st = TNone).
    { destruct B as (_ & _ & _ & S0).
      destruct (p_T st) eqn:E0; try reflexivity; exfalso; apply S0; congruence. }
    destruct R as (R1 & R2 & (done & rest & M1 & M2 & M3 & M4) & R4). split; [exact R1|].
    split; [unfold Put in *; rewrite HT in R2; exact R2|]. split; [|exact R4].
    exists done, rest. rewrite HT in M4. do 3 (split; [assumption|]). exact M4.
  - destruct (fail_connection _ _ _ _) as [st2 e2] eqn:F. apply some_inj in H as <-. shapes.
    now apply (Recv_quiet st).
  - destruct (r_eof _); [discriminate|]. apply some_inj in H as <-. now apply (Recv_quiet st).
  - destruct (r_eof _); [discriminate|]. apply some_inj in H as <-. now apply (Recv_quiet st).
  - destruct (p_state st); try discriminate; apply some_inj in H as <-;
      destruct (connection_lost_shape st o closing) as (? & ? & ? & ? & ? & ->);
      now apply (Recv_quiet st).
  - apply some_inj in H as <-. now apply (Recv_quiet st).
  - apply some_inj in H as <-. now apply (Recv_quiet st).
  - apply some_inj in H as <-. apply Recv_users; [exact R|]. intros j x.
    destruct (Nat.lt_ge_cases j (length (p_users st))) as [L|G].
    + now rewrite nth_error_app1 by exact L.
    + rewrite nth_error_app2 by exact G. rewrite (proj2 (nth_error_None _ _) G).
      destruct (j - length (p_users st))%nat as [|[]]; cbn [nth_error]; split; intros [d Q]; discriminate.
  - destruct (nth_error _ _) as [[pc ?]|] eqn:Hi; [|discriminate].
    assert (N : forall r, pc <> UDone r) by (intros r ->; discriminate).
    assert (H' : set_users (replace i (pc, true) (p_users st)) st = st') by (destruct pc; congruence).
    clear H. subst st'. apply Recv_users; [exact R|]. intros j x. eapply nth_error_replace_users; eauto.
  - destruct R as (R1 & R2 & R3 & R4).
    destruct (step_T_tq st a st' R1 R2 H) as (A1 & A2 & A3 & A4).
    split; [exact A3|]. split; [exact A4|]. split; [eapply Msgs_T; eauto|].
    destruct A2 as [A2 A2']. eapply Delivered_same; eauto.
  - apply step_K_shape in H as (? & ? & ? & ? & ? & ? & ? & ? & ->). now apply (Recv_quiet st).
  - apply step_C_shape in H as (? & ? & ? & ? & ? & ->). now apply (Recv_quiet st).
  - eapply Recv_user; eauto.
Qed.
Lemma Recv_exec exts ls st : exec X cfg (initial exts) ls = Some st -> Base st /\ Recv st.
Proof.
  apply (exec_steps X cfg (fun st => Base st /\ Recv st)).
  - intros st1 l st2 [B C] H. split; [eapply Base_step; eauto|eapply Recv_step; eauto].
  - split; [apply Base_initial|]. split; [split; discriminate|]. split; [reflexivity|]. split.
    + exists [], []. repeat split; constructor.
    + split; [constructor|]. intros i m. split; [intros []|]. intros [c Q]. destruct i; discriminate.
Qed.
End Messages.
