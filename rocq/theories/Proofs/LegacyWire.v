(* The frames read by the asyncio connection are those on the wire (without extensions). *)
From Verif Require Import Base.Prelude Base.PreludeFacts Model.Streams Model.Frames
  Model.LegacyFraming Model.LegacyProtocol Spec.Rfc6455 Spec.FrameSpec Spec.Messages Spec.Asyncio
  Proofs.FramesFacts
  Proofs.LegacyPrims Proofs.LegacyFields Proofs.LegacyShapes Proofs.LegacyUsers Proofs.LegacyClose
  Proofs.LegacyQueue Proofs.LegacyMessages Properties.FrameCodec.
Local Open Scope N_scope.

Section Wire.
Context {E : Type} (X : ext_ops E) (cfg : config).
Implicit Type st : conn E.

(* the data received from the network *)
Definition received (ls : list label) : bytes :=
  flat_map (fun l => match l with LData d => d | _ => [] end) ls.
(* w is frame f on the wire *)
Definition wire_frame (f : frame) (w : bytes) : Prop :=
  exists key, layout (on_wire f key) w /\ acceptable (on_wire f key) /\
    is_masked (on_wire f key) = negb (c_client cfg).

Definition Wire (fed : bytes) st : Prop :=
  exists ws rest, fed = concat ws ++ rest /\ Forall2 wire_frame (p_in st) ws /\
    (T_done st = false -> rest = r_buffer (p_reader st)).

Lemma T_done_done st t : settled t -> p_T st = t -> T_done st = true.
Proof. intros [e ->] H. unfold T_done. now rewrite H. Qed.

Lemma step_T_reader st a st' :
  no_extension (E := E) -> step_T X cfg st a = Some st' ->
  (p_in st' = p_in st /\ p_reader st' = p_reader st) \/
  (p_in st' = p_in st /\ T_done st' = true) \/
  (exists f w, p_in st' = p_in st ++ [f] /\ wire_frame f w /\
     r_buffer (p_reader st) = w ++ r_buffer (p_reader st')).
Proof.
  intros N H.
  assert (Rs : forall st1 e, p_in st1 = p_in st -> p_reader st1 = p_reader st ->
     let s := T_raise X cfg st1 e in p_in s = p_in st /\ p_reader s = p_reader st).
  { intros st1 e A1 A2. destruct (T_raise_shape X cfg st1 e) as (? & ? & ? & ? & ? & ? & ->).
    now split. }
  assert (Ac : forall st1 e, p_in st1 = p_in st -> p_reader st1 = p_reader st ->
     let s := after_close X cfg st1 e in p_in s = p_in st /\ p_reader s = p_reader st).
  { intros st1 e A1 A2. destruct (after_close_shape X cfg st1 e) as (? & ? & ? & ? & ? & ? & ->).
    now split. }
  unfold step_T in H.
  destruct (p_T st) as [|c|c|c|c|c|m w|e] eqn:HT; try discriminate; (destruct (p_Tcancel st);
    [destruct a; try discriminate; apply some_inj in H as <-; left; now apply Rs|]).
  - destruct a; try discriminate. unfold read_frame in H.
    assert (G : match run (legacy_read X (negb (c_client cfg)) (read_limit cfg c)) (p_reader st) (p_exts st) with
        | OSusp _ _ _ => None
        | OFail e r exts => Some (T_raise X cfg (set_reader r (set_exts exts st)) (PyExn e))
        | ODone f r exts =>
          let st := set_in (p_in st ++ [f]) (set_reader r (set_exts exts st)) in
          Some (on_frame X cfg st c f)
        end = Some st' ->
      (p_in st' = p_in st /\ p_reader st' = p_reader st) \/
      (p_in st' = p_in st /\ T_done st' = true) \/
      (exists f w, p_in st' = p_in st ++ [f] /\ wire_frame f w /\
         r_buffer (p_reader st) = w ++ r_buffer (p_reader st'))).
    { clear H. destruct (run _ _ _) as [? ? ?|f r ex|e r ex] eqn:Run; cbv zeta; try discriminate; intros H;
        apply some_inj in H as <-.
      - rewrite (N (p_exts st)) in Run. destruct (p_reader st) as [buf eof] eqn:Er.
        change (legacy_read X) with (frame_parse X) in Run.
        apply C05_accepted_frames_were_received in Run as (w & key & Q1 & Q2 & Q3 & Q4 & Q5).
        right. right. exists f, w. cbn [r_buffer].
        set (st1 := set_in _ _). destruct (on_frame_close X cfg st1 c f) as (_ & B & _).
        split; [exact B|]. split; [now exists key|]. rewrite Q1. f_equal. f_equal.
        symmetry. clear. unfold on_frame.
        assert (R : forall s0 e, p_reader (T_raise X cfg s0 e) = p_reader s0).
        { intros s0 e. destruct (T_raise_shape X cfg s0 e) as (? & ? & ? & ? & ? & ? & ->). reflexivity. }
        assert (P : forall m, p_reader (put_message X cfg st1 m) = r).
        { intros m. unfold put_message. destruct (room cfg st1); [|reflexivity].
          destruct (p_pop _); [|reflexivity]. destruct (set_result _ _); [reflexivity|]. now rewrite R. }
        assert (D : p_reader match read_message cfg c f with
             | RMsg m => put_message X cfg st1 m
             | RNext c => set_T (TRead c) st1
             | RExn e => T_raise X cfg st1 (PyExn e)
             end = r)
          by (destruct (read_message cfg c f); [apply P|reflexivity|apply R]).
        destruct (f_opcode f); try exact D.
        + destruct (parse_close _); [|apply R].
          destruct (write_close_frame _ _ _ _ _) as [st2 [[?|]|]] eqn:W; shapes; [now rewrite R|reflexivity|].
          destruct (after_close_shape X cfg (set_out x (set_exts x0 (set_state x1 (set_close (Some a) st1)))) c)
            as (? & ? & ? & ? & ? & ? & ->). reflexivity.
        + destruct (ensure_open _); [|apply R|reflexivity].
          destruct (write_frame _ _ _ _ _ _ _ _) as [st2 [?|]] eqn:W; shapes; [now rewrite R|reflexivity].
        + destruct (receive_pong_shape st1 (f_data f)) as (? & ? & ->). reflexivity.
      - right. left.
        destruct (T_raise_shape X cfg (set_reader r (set_exts ex st)) (PyExn e)) as (? & ? & ? & ? & ? & ? & ->).
        split; reflexivity. }
    destruct (p_lost st) as [[o|]|] eqn:L; [|now apply G|now apply G].
    apply some_inj in H as <-. left. now apply Rs.
  - destruct (after_drain X cfg st a) as [[st2 r]|] eqn:D; [|discriminate]. shapes.
    left. destruct r; apply some_inj in H as <-; [|apply Rs|]; repeat split.
  - destruct a; try discriminate. destruct (ensure_open_end st); [|discriminate].
    apply some_inj in H as <-. left. now apply Rs.
  - destruct (after_drain X cfg st a) as [[st2 r]|] eqn:D; [|discriminate]. shapes.
    left. destruct r; apply some_inj in H as <-; [apply Ac|destruct (is_closed_exn e); [apply Ac|apply Rs]|];
      repeat split.
  - destruct a; try discriminate. destruct (ensure_open_end st); [|discriminate].
    apply some_inj in H as <-. left. destruct (is_closed_exn p); [apply Ac|apply Rs]; reflexivity.
  - destruct a; try discriminate. destruct (fut_done _); [|discriminate]. apply some_inj in H as <-.
    left. unfold put_message. destruct (room cfg _); [|split; reflexivity].
    destruct (p_pop _); [|split; reflexivity]. destruct (set_result _ _); [split; reflexivity|].
    now apply Rs.
Qed.

Lemma T_done_T st st' : p_T st' = p_T st -> T_done st' = T_done st.
Proof. unfold T_done. now intros ->. Qed.

Lemma Wire_step fed st l st' :
  no_extension (E := E) -> Base st -> Wire fed st -> step X cfg st l = Some st' ->
  Wire (fed ++ received [l]) st'.
Proof.
  intros N B (ws & rest & W1 & W2 & W3) H.
  assert (Same : (forall d, l <> LData d) -> p_in st' = p_in st -> p_reader st' = p_reader st ->
                 (T_done st' = false -> T_done st = false) -> Wire (fed ++ received [l]) st').
  { intros Hl A1 A2 A3. exists ws, rest. rewrite A1, A2.
    split; [|split; [exact W2|auto]].
    replace (received [l]) with (@nil byte); [now rewrite app_nil_r|].
    destruct l; try reflexivity. now contradiction (Hl data). }
  destruct l; cbn [step] in H.
  - destruct (p_state st) eqn:Es; try discriminate. destruct (p_C st); try discriminate.
    apply some_inj in H as <-. apply Same; try reflexivity; try discriminate.
    intros _. destruct B as (_ & _ & _ & S0). unfold T_done.
    destruct (p_T st) eqn:E0; try reflexivity; exfalso; apply S0; congruence.
  - destruct (fail_connection _ _ _ _) as [st2 e2] eqn:F. apply some_inj in H as <-. shapes.
    apply Same; try reflexivity; try discriminate. exact (fun x => x).
  - destruct (r_eof _); [discriminate|]. apply some_inj in H as <-.
    exists ws, (rest ++ data). cbn [received flat_map p_in p_reader set_reader r_buffer]. rewrite app_nil_r.
    split; [rewrite W1; now rewrite app_assoc|]. split; [exact W2|]. intros HT. now rewrite (W3 HT).
  - destruct (r_eof _); [discriminate|]. apply some_inj in H as <-.
    exists ws, rest. cbn [received flat_map p_in p_reader set_closing set_reader r_buffer].
    rewrite app_nil_r. auto.
  - assert (HC : p_state st <> Closed) by (destruct (p_state st); discriminate).
    assert (H' : connection_lost st o closing = st') by (destruct (p_state st); congruence).
    clear H. subst st'. exists ws, rest. cbn [received flat_map]. rewrite app_nil_r.
    pose proof (connection_lost_fields st o closing) as (_ & _ & _ & -> & _).
    split; [exact W1|]. split; [exact W2|].
    unfold connection_lost. cbv zeta.
    set (st2 := match p_close _ with None => _ | Some _ => _ end).
    assert (Q : p_reader st2 = p_reader st /\ p_T st2 = p_T st) by (unfold st2; destruct (p_close _); now split).
    clearbody st2. destruct Q as [Q1 Q2].
    destruct (abort_futs _ _ _) as [futs []].
    + cbn [p_reader set_reader r_buffer set_pongs set_lost]. rewrite Q1. unfold T_done. cbn [p_T set_reader set_lost set_pongs].
      rewrite Q2. exact W3.
    + cbn [p_reader set_pongs]. rewrite Q1. unfold T_done. cbn [p_T set_pongs]. rewrite Q2. exact W3.
  - apply some_inj in H as <-. apply Same; try reflexivity; try discriminate. exact (fun x => x).
  - apply some_inj in H as <-. apply Same; try reflexivity; try discriminate. exact (fun x => x).
  - apply some_inj in H as <-. apply Same; try reflexivity; try discriminate. exact (fun x => x).
  - destruct (nth_error _ _) as [[[] ?]|]; try discriminate; apply some_inj in H as <-;
      (apply Same; try reflexivity; try discriminate; exact (fun x => x)).
  - assert (HT : T_done st = false).
    { unfold T_done. unfold step_T in H. destruct (p_T st); try reflexivity; discriminate. }
    cbn [received flat_map]. rewrite app_nil_r.
    destruct (step_T_reader st a st' N H) as [[A1 A2]|[[A1 A2]|(f & w & A1 & A2 & A3)]].
    + exists ws, rest. rewrite A1, A2. auto.
    + exists ws, rest. rewrite A1, A2. split; [exact W1|]. split; [exact W2|discriminate].
    + exists (ws ++ [w]), (r_buffer (p_reader st')). rewrite A1. split.
      * rewrite concat_app. cbn [concat]. rewrite app_nil_r, <- app_assoc, <- A3.
        rewrite <- (W3 HT). exact W1.
      * split; [now apply Forall2_snoc|]. auto.
  - apply step_K_shape in H as (? & ? & ? & ? & ? & ? & ? & ? & ->).
    apply Same; try reflexivity; try discriminate. exact (fun x => x).
  - apply step_C_shape in H as (? & ? & ? & ? & ? & ->).
    apply Same; try reflexivity; try discriminate. exact (fun x => x).
  - apply step_user_still in H as (H1 & H2 & _ & _ & H3 & _).
    apply Same; try assumption; try discriminate. now rewrite (T_done_T _ _ H1).
Qed.
Lemma Wire_exec exts ls st :
  no_extension (E := E) -> exec X cfg (initial exts) ls = Some st -> Wire (received ls) st.
Proof.
  intros N.
  assert (G : forall ls fed st0, Base st0 -> Wire fed st0 -> exec X cfg st0 ls = Some st ->
              Wire (fed ++ received ls) st).
  { clear ls. induction ls as [|l ls IH]; cbn [exec]; intros fed st0 B W H.
    - apply some_inj in H as <-. cbn. now rewrite app_nil_r.
    - destruct (step X cfg st0 l) as [st1|] eqn:S1; [|discriminate].
      change (l :: ls) with ([l] ++ ls). unfold received. rewrite flat_map_app, app_assoc.
      apply (IH _ st1); [eapply Base_step; eauto| |exact H]. now apply (Wire_step fed st0 l). }
  intros H. apply (G ls [] (initial exts)); [apply Base_initial| |exact H].
  exists [], []. repeat split. constructor.
Qed.
End Wire.
