(* The frames read by the asyncio connection are those on the wire, once decoded by extensions. *)
From Verif Require Import Base.Prelude Base.PreludeFacts Model.Streams Model.Frames
  Model.LegacyFraming Model.LegacyProtocol Spec.Rfc6455 Spec.FrameSpec Spec.Messages Spec.Asyncio
  Proofs.StreamsFacts Proofs.FramesFacts Proofs.WireUnique
  Proofs.LegacyPrims Proofs.LegacyFields Proofs.LegacyShapes Proofs.LegacyUsers Proofs.LegacyClose
  Proofs.LegacyQueue Proofs.LegacyMessages Proofs.LegacyWire Proofs.LegacyGrowth.
Local Open Scope N_scope.

Lemma legacy_read_done {E} (X : ext_ops E) mask max r exts f r' exts' :
  run (legacy_read X mask max) r exts = ODone f r' exts' ->
  exists g w, r_buffer r = w ++ r_buffer r' /\ framed mask g w /\
    decode_reversed X exts g max = (exts', Ok f).
Proof.
  change (legacy_read X) with (frame_parse X). unfold frame_parse, parse_frame. rewrite run_gbind.
  destruct (run (parse_wire mask max) r exts) as [g0 r0 x|g r0 x|e r0 x] eqn:R; try discriminate.
  apply parse_wire_inv in R as (-> & _ & w & key & Hb & L & M & _). simpl.
  destruct (decode_reversed X exts g max) as [ex [f1|e]] eqn:D; simpl; [|discriminate].
  destruct (check f1) eqn:C; simpl; [|discriminate]. intros H.
  assert (ODone f1 r0 ex = ODone f r' exts') as H' by exact H. clear H.
  assert (f1 = f /\ r0 = r' /\ ex = exts') as (-> & -> & ->) by (repeat split; congruence).
  exists g, w. split; [exact Hb|]. split; [|exact D]. now exists key.
Qed.

Section Read.
Context {E : Type} (X : ext_ops E) (cfg : config).
Implicit Type st : conn E.
(* how extensions change when frames are written *)
Variable wr : list E -> list E -> Prop.
Hypothesis wr_refl : forall e, wr e e.
Hypothesis wr_trans : forall e e1 e2, wr e e1 -> wr e1 e2 -> wr e e2.
Hypothesis wr_write : forall st by_ f st' e, write X cfg st by_ f = (st', e) -> wr (p_exts st) (p_exts st').

(* frames read, as they were on the wire, with the size limits, and the extensions afterwards *)
Inductive Reads (e0 : list E) : list frame -> list (frame * option Z) -> list bytes -> list E -> Prop :=
| Reads_nil e : wr e0 e -> Reads e0 [] [] [] e
| Reads_snoc fs gs ws e f g n w e1 e2 :
    Reads e0 fs gs ws e -> framed (negb (c_client cfg)) g w ->
    decode_reversed X e g n = (e1, Ok f) -> wr e1 e2 ->
    Reads e0 (fs ++ [f]) (gs ++ [(g, n)]) (ws ++ [w]) e2.
Lemma Reads_wr e0 fs gs ws e e' : Reads e0 fs gs ws e -> wr e e' -> Reads e0 fs gs ws e'.
Proof.
  intros H W. inversion H; subst; [constructor; eapply wr_trans; eassumption|].
  econstructor; [eassumption|eassumption|eassumption|]. eapply wr_trans; eassumption.
Qed.

Definition ow st st' : Prop := wr (p_exts st) (p_exts st').
Lemma ow_same st st' : p_out st' = p_out st -> p_exts st' = p_exts st -> ow st st'.
Proof. unfold ow. intros _ ->. apply wr_refl. Qed.
Lemma ow_tr st st1 st2 : ow st st1 -> ow st1 st2 -> ow st st2.
Proof. apply wr_trans. Qed.
Let any : frame -> Prop := fun _ => True.
Let anyd : py_data -> Prop := fun _ => True.
Lemma any_ctrl fin op data : is_ctrl op = true -> any (mkframe fin op data). Proof. intros _. exact Logic.I. Qed.
Lemma write_o st by_ f st' e : any f -> write X cfg st by_ f = (st', e) -> ow st st'.
Proof. intros _. apply wr_write. Qed.
Definition T_raise_o := T_raise_ow X cfg ow ow_same ow_tr any any_ctrl write_o.
Definition after_close_o := after_close_ow X cfg ow ow_same ow_tr any any_ctrl write_o.
Definition put_message_o := put_message_ow X cfg ow ow_same ow_tr any any_ctrl write_o.
Definition on_frame_o := on_frame_ow X cfg ow ow_same ow_tr any any_ctrl write_o.
Definition after_drain_o := after_drain_ow X cfg ow ow_same ow_tr any any_ctrl write_o.
Definition fail_o := fail_ow X cfg ow ow_same ow_tr any any_ctrl write_o.
Definition step_K_o := step_K_ow X cfg ow ow_same ow_tr any any_ctrl write_o.
Lemma any_data d op data fin op' : anyd d -> prepare_data d = Ok (op, data) -> any (mkframe fin op' data).
Proof. intros _ _. exact Logic.I. Qed.
Definition step_user_o := step_user_ow X cfg ow ow_same ow_tr any anyd any_ctrl Logic.I any_data write_o.

Lemma on_frame_still st1 c f : p_in (on_frame X cfg st1 c f) = p_in st1 /\ p_reader (on_frame X cfg st1 c f) = p_reader st1.
Proof.
  destruct (on_frame_close X cfg st1 c f) as (_ & B & _). split; [exact B|]. clear B. unfold on_frame.
  assert (R : forall s0 e, p_reader (T_raise X cfg s0 e) = p_reader s0).
  { intros s0 e. destruct (T_raise_shape X cfg s0 e) as (? & ? & ? & ? & ? & ? & ->). reflexivity. }
  assert (P : forall m, p_reader (put_message X cfg st1 m) = p_reader st1).
  { intros m. unfold put_message. destruct (room cfg st1); [|reflexivity].
    destruct (p_pop _); [|reflexivity]. destruct (set_result _ _); [reflexivity|]. now rewrite R. }
  assert (D : p_reader match read_message cfg c f with
       | RMsg m => put_message X cfg st1 m
       | RNext c => set_T (TRead c) st1
       | RExn e => T_raise X cfg st1 (PyExn e)
       end = p_reader st1)
    by (destruct (read_message cfg c f); [apply P|reflexivity|apply R]).
  destruct (f_opcode f); try exact D.
  - destruct (parse_close _); [|apply R].
    destruct (write_close_frame _ _ _ _ _) as [st2 [[?|]|]] eqn:W; shapes; [now rewrite R|reflexivity|].
    destruct (after_close_shape X cfg (set_out x (set_exts x0 (set_state x1 (set_close (Some a) st1)))) c)
      as (? & ? & ? & ? & ? & ? & ->). reflexivity.
  - destruct (ensure_open _); [|apply R|reflexivity].
    destruct (write_frame _ _ _ _ _ _ _ _) as [st2 [?|]] eqn:W; shapes; [now rewrite R|reflexivity].
  - destruct (receive_pong_shape st1 (f_data f)) as (? & ? & ->). reflexivity.
Qed.

Lemma step_T_read st a st' : step_T X cfg st a = Some st' ->
  (p_in st' = p_in st /\ p_reader st' = p_reader st /\ ow st st') \/
  (p_in st' = p_in st /\ T_done st' = true) \/
  (exists f g n w e1, p_in st' = p_in st ++ [f] /\ framed (negb (c_client cfg)) g w /\
     r_buffer (p_reader st) = w ++ r_buffer (p_reader st') /\
     decode_reversed X (p_exts st) g n = (e1, Ok f) /\ wr e1 (p_exts st')).
Proof.
  intros H.
  assert (Rs : forall st1 e, p_in st1 = p_in st -> p_reader st1 = p_reader st -> ow st st1 ->
     let s := T_raise X cfg st1 e in p_in s = p_in st /\ p_reader s = p_reader st /\ ow st s).
  { intros st1 e A1 A2 A3. cbv zeta. pose proof (ow_tr _ _ _ A3 (T_raise_o st1 e)) as A4.
    destruct (T_raise_shape X cfg st1 e) as (? & ? & ? & ? & ? & ? & Q). rewrite Q in *. now split. }
  assert (Ac : forall st1 e, p_in st1 = p_in st -> p_reader st1 = p_reader st -> ow st st1 ->
     let s := after_close X cfg st1 e in p_in s = p_in st /\ p_reader s = p_reader st /\ ow st s).
  { intros st1 e A1 A2 A3. cbv zeta. pose proof (ow_tr _ _ _ A3 (after_close_o st1 e)) as A4.
    destruct (after_close_shape X cfg st1 e) as (? & ? & ? & ? & ? & ? & Q). rewrite Q in *. now split. }
  assert (Here : forall st1, p_exts st1 = p_exts st -> ow st st1) by (intros st1 Q; unfold ow; rewrite Q; apply wr_refl).
  unfold step_T in H.
  destruct (p_T st) as [|c|c|c|c|c|m w|e] eqn:HT; try discriminate; (destruct (p_Tcancel st);
    [destruct a; try discriminate; apply some_inj in H as <-; left; apply Rs; [reflexivity|reflexivity|now apply Here]|]).
  - destruct a; try discriminate. unfold read_frame in H.
    destruct (p_lost st) as [[o|]|] eqn:L.
    + apply some_inj in H as <-. left. apply Rs; [reflexivity|reflexivity|now apply Here].
    + destruct (run _ _ _) as [? ? ?|f r ex|e r ex] eqn:Run; try discriminate; apply some_inj in H as <-.
      * apply legacy_read_done in Run as (g & w & Q1 & Q2 & Q3). right. right.
        set (st1 := set_in _ _). destruct (on_frame_still st1 c f) as [B1 B2].
        exists f, g, (read_limit cfg c), w, ex. split; [rewrite B1; reflexivity|]. split; [exact Q2|]. split; [rewrite B2; exact Q1|].
        split; [exact Q3|]. exact (on_frame_o st1 c f).
      * right. left. destruct (T_raise_shape X cfg (set_reader r (set_exts ex st)) (PyExn e)) as (? & ? & ? & ? & ? & ? & ->).
        split; reflexivity.
    + destruct (run _ _ _) as [? ? ?|f r ex|e r ex] eqn:Run; try discriminate; apply some_inj in H as <-.
      * apply legacy_read_done in Run as (g & w & Q1 & Q2 & Q3). right. right.
        set (st1 := set_in _ _). destruct (on_frame_still st1 c f) as [B1 B2].
        exists f, g, (read_limit cfg c), w, ex. split; [rewrite B1; reflexivity|]. split; [exact Q2|]. split; [rewrite B2; exact Q1|].
        split; [exact Q3|]. exact (on_frame_o st1 c f).
      * right. left. destruct (T_raise_shape X cfg (set_reader r (set_exts ex st)) (PyExn e)) as (? & ? & ? & ? & ? & ? & ->).
        split; reflexivity.
  - destruct (after_drain X cfg st a) as [[st2 r]|] eqn:D; [|discriminate]. pose proof (after_drain_o st a st2 r D) as O. shapes.
    left. destruct r; apply some_inj in H as <-; [|apply Rs|]; first [exact O|reflexivity|split; [reflexivity|split; [reflexivity|exact O]]].
  - destruct a; try discriminate. destruct (ensure_open_end st); [|discriminate].
    apply some_inj in H as <-. left. apply Rs; [reflexivity|reflexivity|now apply Here].
  - destruct (after_drain X cfg st a) as [[st2 r]|] eqn:D; [|discriminate]. pose proof (after_drain_o st a st2 r D) as O. shapes.
    left. destruct r; apply some_inj in H as <-; [apply Ac|destruct (is_closed_exn e); [apply Ac|apply Rs]|];
      first [exact O|reflexivity|split; [reflexivity|split; [reflexivity|exact O]]].
  - destruct a; try discriminate. destruct (ensure_open_end st); [|discriminate].
    apply some_inj in H as <-. left. destruct (is_closed_exn p); [apply Ac|apply Rs]; solve [reflexivity|now apply Here].
  - destruct a; try discriminate. destruct (fut_done _); [|discriminate]. apply some_inj in H as <-.
    left. match goal with |- context [put_message X cfg ?s m] => set (s1 := s) end.
    assert (O : ow st (put_message X cfg s1 m)) by (eapply ow_tr; [now apply (Here s1)|apply put_message_o]).
    split; [|split; [|exact O]]; clear O; unfold put_message; destruct (room cfg s1); try reflexivity;
      destruct (p_pop _); try reflexivity; destruct (set_result _ _); try reflexivity;
      match goal with |- context [T_raise X cfg ?s2 ?e] => destruct (T_raise_shape X cfg s2 e) as (? & ? & ? & ? & ? & ? & ->) end; reflexivity.
Qed.

Definition WireX (e0 : list E) (fed : bytes) st : Prop :=
  exists gs ws rest e, fed = concat ws ++ rest /\ Reads e0 (p_in st) gs ws e /\
    (T_done st = false -> rest = r_buffer (p_reader st) /\ wr e (p_exts st)).

Lemma WireX_step e0 fed st l st' : Base st -> WireX e0 fed st -> step X cfg st l = Some st' ->
  WireX e0 (fed ++ received [l]) st'.
Proof.
  intros B (gs & ws & rest & e & W1 & W2 & W3) H.
  assert (Same : (forall d, l <> LData d) -> p_in st' = p_in st -> p_reader st' = p_reader st -> ow st st' ->
                 (T_done st' = false -> T_done st = false) -> WireX e0 (fed ++ received [l]) st').
  { intros Hl A1 A2 A3 A4. exists gs, ws, rest, e. rewrite A1, A2.
    split; [|split; [exact W2|]].
    - replace (received [l]) with (@nil byte); [now rewrite app_nil_r|].
      destruct l; try reflexivity. now contradiction (Hl data).
    - intros HT. destruct (W3 (A4 HT)) as [Q1 Q2]. split; [exact Q1|]. eapply wr_trans; [exact Q2|exact A3]. }
  assert (Here : forall st1, p_exts st1 = p_exts st -> ow st st1) by (intros st1 Q; unfold ow; rewrite Q; apply wr_refl).
  destruct l; cbn [step] in H.
  - destruct (p_state st) eqn:Es; try discriminate. destruct (p_C st); try discriminate.
    apply some_inj in H as <-. apply Same; try reflexivity; try discriminate; [now apply Here|].
    intros _. destruct B as (_ & _ & _ & S0). unfold T_done.
    destruct (p_T st) eqn:E0; try reflexivity; exfalso; apply S0; congruence.
  - destruct (fail_connection _ _ _ _) as [st2 e2] eqn:F. apply some_inj in H as <-. pose proof (fail_o _ _ _ _ F) as O. shapes.
    apply Same; try reflexivity; try discriminate; [exact O|]. exact (fun x => x).
  - destruct (r_eof _); [discriminate|]. apply some_inj in H as <-.
    exists gs, ws, (rest ++ data), e. cbn [received flat_map p_in p_reader set_reader r_buffer p_exts]. rewrite app_nil_r.
    split; [rewrite W1; now rewrite app_assoc|]. split; [exact W2|]. intros HT. destruct (W3 HT) as [-> Q]. now split.
  - destruct (r_eof _); [discriminate|]. apply some_inj in H as <-.
    exists gs, ws, rest, e. cbn [received flat_map p_in p_reader set_closing set_reader r_buffer p_exts].
    rewrite app_nil_r. auto.
  - assert (HC : p_state st <> Closed) by (destruct (p_state st); discriminate).
    assert (H' : connection_lost st o closing = st') by (destruct (p_state st); congruence).
    clear H. subst st'. exists gs, ws, rest, e. cbn [received flat_map]. rewrite app_nil_r.
    pose proof (connection_lost_fields st o closing) as (_ & _ & _ & -> & _).
    split; [exact W1|]. split; [exact W2|].
    unfold connection_lost. cbv zeta.
    set (st2 := match p_close _ with None => _ | Some _ => _ end).
    assert (Q : p_reader st2 = p_reader st /\ p_T st2 = p_T st /\ p_exts st2 = p_exts st) by (unfold st2; destruct (p_close _); repeat split).
    clearbody st2. destruct Q as (Q1 & Q2 & Q3).
    destruct (abort_futs _ _ _) as [futs []].
    + cbn [p_reader set_reader r_buffer set_pongs set_lost]. rewrite Q1. unfold T_done. cbn [p_T set_reader set_lost set_pongs p_exts].
      rewrite Q2, Q3. exact W3.
    + cbn [p_reader set_pongs p_exts]. rewrite Q1, Q3. unfold T_done. cbn [p_T set_pongs]. rewrite Q2. exact W3.
  - apply some_inj in H as <-. apply Same; try reflexivity; try discriminate; [now apply Here|]. exact (fun x => x).
  - apply some_inj in H as <-. apply Same; try reflexivity; try discriminate; [now apply Here|]. exact (fun x => x).
  - apply some_inj in H as <-. apply Same; try reflexivity; try discriminate; [now apply Here|]. exact (fun x => x).
  - destruct (nth_error _ _) as [[[] ?]|]; try discriminate; apply some_inj in H as <-;
      (apply Same; try reflexivity; try discriminate; [now apply Here|exact (fun x => x)]).
  - assert (HT : T_done st = false).
    { unfold T_done. unfold step_T in H. destruct (p_T st); try reflexivity; discriminate. }
    cbn [received flat_map]. rewrite app_nil_r. destruct (W3 HT) as [-> Q].
    destruct (step_T_read st a st' H) as [(A1 & A2 & A3)|[[A1 A2]|(f & g & n & w & e1 & A1 & A2 & A3 & A4 & A5)]].
    + exists gs, ws, (r_buffer (p_reader st)), e. rewrite A1, A2. split; [exact W1|]. split; [exact W2|]. intros _. split; [reflexivity|].
      eapply wr_trans; [exact Q|exact A3].
    + exists gs, ws, (r_buffer (p_reader st)), e. rewrite A1, A2. split; [exact W1|]. split; [exact W2|discriminate].
    + exists (gs ++ [(g, n)]), (ws ++ [w]), (r_buffer (p_reader st')), (p_exts st'). rewrite A1. split.
      * rewrite concat_app. cbn [concat]. rewrite app_nil_r, <- app_assoc, <- A3. exact W1.
      * split; [|intros _; split; [reflexivity|apply wr_refl]].
        econstructor; [eapply Reads_wr; eassumption|eassumption|eassumption|eassumption].
  - pose proof (step_K_o _ _ _ H) as O. apply step_K_shape in H as (? & ? & ? & ? & ? & ? & ? & ? & ->).
    apply Same; try reflexivity; try discriminate; [exact O|]. exact (fun x => x).
  - apply step_C_shape in H as (? & ? & ? & ? & ? & ->).
    apply Same; try reflexivity; try discriminate; [now apply Here|]. exact (fun x => x).
  - assert (O : ow st st').
    { apply (step_user_o i st a st'); [|destruct a as [| | | | |[]]; exact Logic.I|exact H].
      intros pc c _. assert (Fa : forall l, Forall anyd l) by (intros l; induction l; now constructor).
      destruct pc as [[]| | | | |? []| | | | | | | | | | |]; try exact Logic.I; try apply Fa; destruct m; try exact Logic.I; apply Fa. }
    apply step_user_still in H as (H1 & H2 & _ & _ & H3 & _).
    apply Same; try assumption; try discriminate. now rewrite (T_done_T _ _ H1).
Qed.
Lemma WireX_exec exts ls st : exec X cfg (initial exts) ls = Some st -> WireX exts (received ls) st.
Proof.
  assert (G : forall ls fed st0, Base st0 -> WireX exts fed st0 -> exec X cfg st0 ls = Some st ->
              WireX exts (fed ++ received ls) st).
  { clear ls. induction ls as [|l ls IH]; cbn [exec]; intros fed st0 B W H.
    - apply some_inj in H as <-. cbn. now rewrite app_nil_r.
    - destruct (step X cfg st0 l) as [st1|] eqn:S1; [|discriminate].
      change (l :: ls) with ([l] ++ ls). unfold received. rewrite flat_map_app, app_assoc.
      apply (IH _ st1); [eapply Base_step; eauto| |exact H]. now apply (WireX_step exts fed st0 l). }
  intros H. apply (G ls [] (initial exts)); [apply Base_initial| |exact H].
  exists [], [], [], exts. split; [reflexivity|]. split; [constructor; apply wr_refl|]. intros _. split; [reflexivity|apply wr_refl].
Qed.
End Read.
