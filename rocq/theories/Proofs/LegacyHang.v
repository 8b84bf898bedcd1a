(* Calls don't wait forever once the connection is lost. *)
From Verif Require Import Base.Prelude Base.PreludeFacts Base.Utf8 Model.Streams Model.Frames
  Model.LegacyFraming Model.LegacyProtocol Spec.Messages Spec.Asyncio Spec.AsyncioKeepalive Spec.AsyncioHang
  Proofs.LegacyPrims Proofs.LegacyFields Proofs.LegacyShapes Proofs.LegacyUsers Proofs.LegacyClose
  Proofs.LegacyQueue Proofs.LegacyMessages Proofs.LegacyTiming Proofs.LegacyRead Proofs.LegacyKeepalive Proofs.AtomicFacts.
Local Open Scope N_scope.

Section Hang.
Context {E : Type} (X : ext_ops E) (cfg : config).
Implicit Type st : conn E.
Context (AC : accepts_control X) (Keys : forall n, length (c_key cfg n) = 4%nat).
Context (timeout : c_close_timeout cfg <> None).

Definition mild st : Prop :=
  match p_lost st with Some (Some TimeoutErr) | Some (Some OtherOsErr) => False | _ => True end.
Definition done_fut (futs : list fut) (w : nat) : Prop := fut_done (get_fut futs w) = true.

(** Helpers *)
(* Steps that leave the calls and transfer_data alone *)
Definition quiet st st' : Prop :=
  p_users st' = p_users st /\ p_T st' = p_T st /\ p_lost st' = p_lost st /\
  (p_C st <> CNone -> p_C st' <> CNone) /\ (p_Tcancel st = true -> p_Tcancel st' = true) /\
  (p_state st' = p_state st \/ p_state st = Open /\ p_state st' = Closing /\ Tend st').
Definition samefrag st st' : Prop := p_frag st' = p_frag st /\ p_frags st' = p_frags st.
Definition sameput st st' : Prop :=
  p_put st' = p_put st /\ p_puts st' = p_puts st /\ p_messages st' = p_messages st.
Definition opened st : Prop := p_state st = Open -> T_exists st = true.

Lemma Tend_mono st st' : p_T st' = p_T st -> (p_Tcancel st = true -> p_Tcancel st' = true) -> Tend st -> Tend st'.
Proof. unfold Tend, T_done, T_exists. intros -> H. tauto. Qed.
Lemma quiet_refl st : quiet st st.
Proof. unfold quiet. auto 10. Qed.
Lemma quiet_Tend st st' : quiet st st' -> Tend st -> Tend st'.
Proof. intros (_ & A & _ & _ & B & _). now apply Tend_mono. Qed.
Lemma quiet_trans st st1 st2 : quiet st st1 -> quiet st1 st2 -> quiet st st2.
Proof.
  intros Q1 Q2. pose proof (quiet_Tend _ _ Q2) as M.
  destruct Q1 as (A1 & A2 & A3 & A4 & A5 & A6), Q2 as (B1 & B2 & B3 & B4 & B5 & B6).
  split; [congruence|]. split; [congruence|]. split; [congruence|]. split; [auto|]. split; [auto|].
  destruct A6 as [A6|(A6 & A7 & A8)], B6 as [B6|(B6 & B7 & B8)].
  - left. congruence.
  - right. split; [congruence|]. auto.
  - right. split; [exact A6|]. split; [congruence|]. auto.
  - congruence.
Qed.
Lemma write_quiet st by_ f st' e : write X cfg st by_ f = (st', e) -> quiet st st' /\ samefrag st st' /\ sameput st st'.
Proof.
  intros H. apply write_shape in H as (o & x & ->). unfold quiet, samefrag, sameput.
  cbn [set_out set_exts p_users p_T p_lost p_C p_Tcancel p_state p_frag p_frags p_put p_puts p_messages]. auto 20.
Qed.
Lemma write_frame_quiet st by_ fin op data expected st' e :
  write_frame X cfg st by_ fin op data expected = (st', e) -> quiet st st' /\ samefrag st st' /\ sameput st st'.
Proof.
  intros H. apply write_frame_shape in H as (o & x & ->). unfold quiet, samefrag, sameput.
  cbn [set_out set_exts p_users p_T p_lost p_C p_Tcancel p_state p_frag p_frags p_put p_puts p_messages]. auto 20.
Qed.
Lemma start_ping_quiet st by_ data st' e :
  start_ping X cfg st by_ data = (st', e) -> quiet st st' /\ samefrag st st' /\ sameput st st'.
Proof.
  intros H. apply start_ping_shape in H as (o & x & ->). unfold quiet, samefrag, sameput.
  cbn [set_out set_exts set_pings set_pongs p_users p_T p_lost p_C p_Tcancel p_state p_frag p_frags p_put p_puts p_messages].
  auto 20.
Qed.
Lemma cancel_T_quiet st : quiet st (cancel_T st) /\ samefrag st (cancel_T st) /\ sameput st (cancel_T st).
Proof. unfold cancel_T, quiet, samefrag, sameput. destruct (_ && _); cbn; auto 20. Qed.
Lemma cancel_T_state st : p_state (cancel_T st) = p_state st.
Proof. unfold cancel_T. destruct (_ && _); reflexivity. Qed.
Lemma fail_quiet st code st' e : opened st -> fail_connection X cfg st code = (st', e) ->
  quiet st st' /\ samefrag st st' /\ sameput st st' /\ (T_exists st = true -> Tend st').
Proof.
  intros O H. unfold fail_connection in H.
  destruct (cancel_T_quiet st) as (Q1 & F1 & P1). pose proof (cancel_T_Tend st) as Te.
  pose proof (cancel_T_state st) as Es. remember (cancel_T st) as st1 eqn:H1.
  assert (G : forall st2 e2,
    (if negb (code =? 1006)%Z && is_open (p_state st1)
     then match serialize_close code [] with
          | Raise e => (st1, Some e)
          | Ok data => write X cfg (set_state Closing st1) ByFailure (mkframe true CLOSE data)
          end
     else (st1, None)) = (st2, e2) -> quiet st1 st2 /\ samefrag st1 st2 /\ sameput st1 st2).
  { intros st2 e2.
    assert (R : quiet st1 st1 /\ samefrag st1 st1 /\ sameput st1 st1)
      by (split; [apply quiet_refl|]; repeat split).
    destruct (_ && _) eqn:B; [destruct (serialize_close _ _)|]; intros W;
      [|apply pair_equal_spec in W as [<- _]; exact R..].
    apply write_shape in W as (o & x & ->). split; [|repeat split].
    assert (Op : p_state st1 = Open)
      by (destruct (p_state st1); cbn [is_open] in B; try reflexivity; now rewrite andb_false_r in B).
    unfold quiet. cbn [set_out set_exts set_state p_users p_T p_lost p_C p_Tcancel p_state].
    do 5 (split; [auto|]). right. split; [exact Op|]. split; [reflexivity|].
    apply (Tend_mono st1); [reflexivity|auto|]. apply Te, O. congruence. }
  destruct (if negb _ && _ then _ else _) as [st2 e2] eqn:W. destruct (G st2 e2 eq_refl) as (Q2 & F2 & P2).
  assert (R : quiet st2 st' /\ samefrag st2 st' /\ sameput st2 st').
  { destruct e2; apply pair_equal_spec in H as [<- _]; [split; [apply quiet_refl|]; repeat split|].
    destruct (p_C st2) eqn:HC; (split; [|repeat split]); try apply quiet_refl.
    unfold quiet. cbn [set_C p_users p_T p_lost p_C p_Tcancel p_state]. do 3 (split; [reflexivity|]).
    split; [discriminate|]. auto. }
  destruct R as (Q3 & F3 & P3).
  split; [exact (quiet_trans _ _ _ Q1 (quiet_trans _ _ _ Q2 Q3))|].
  unfold samefrag, sameput in *. split; [split; intuition congruence|].
  split; [repeat split; intuition congruence|]. intros T. apply (quiet_Tend _ _ Q3), (quiet_Tend _ _ Q2), Te, T.
Qed.
Lemma after_drain_quiet st a st' r : opened st -> Lost st -> after_drain X cfg st a = Some (st', r) ->
  quiet st st' /\ samefrag st st' /\ sameput st st' /\
  match r with
  | EOk => True
  | ERaise _ => mild st -> T_exists st = true -> Tend st'
  | EWait => False
  end.
Proof.
  intros O L H. unfold after_drain in H.
  assert (R : quiet st st /\ samefrag st st /\ sameput st st) by (split; [apply quiet_refl|]; repeat split).
  destruct a; try discriminate.
  - apply some_inj in H. apply pair_equal_spec in H as [<- <-]. tauto.
  - assert (G : p_state st = Closed -> (let '(st2, _) := fail_connection X cfg st 1006 in Some (st2, ensure_open st2)) = Some (st', r) ->
      quiet st st' /\ samefrag st st' /\ sameput st st' /\
      match r with EOk => True | ERaise _ => mild st -> T_exists st = true -> Tend st' | EWait => False end).
    { intros Cl K. destruct (fail_connection _ _ _ _) as [st2 e2] eqn:F. apply some_inj in K.
      apply pair_equal_spec in K as [<- <-]. destruct (fail_quiet _ _ _ _ O F) as (Q & Q1 & Q2 & Q3).
      split; [exact Q|]. split; [exact Q1|]. split; [exact Q2|].
      destruct Q as (_ & _ & _ & _ & _ & [S0|(S0 & _)]); [|congruence].
      unfold ensure_open. rewrite S0, Cl. auto. }
    destruct (p_lost st) as [[[]|]|] eqn:HL; destruct o; try discriminate;
      try (apply G; [apply L; congruence|exact H]);
      apply some_inj in H; apply pair_equal_spec in H as [<- <-]; (destruct R as (R1 & R2 & R3);
        split; [exact R1|]; split; [exact R2|]; split; [exact R3|]; intros M; unfold mild in M; rewrite HL in M; destruct M).
Qed.

(** A step of a call *)
Definition okpc st (pc : upc) : Prop :=
  match pc with
  | URecvWait _ | UCloseT2 _ | UCloseC _ => T_exists st = true
  | UCloseT d _ => T_exists st = true /\ d <> None
  | UCloseWrite d _ => d <> None
  | UCloseEnsure _ _ | UFragEnsure => False
  | UEnsure => p_C st <> CNone
  | UStart (CallClose code reason) => forall data, serialize_close code reason = Ok data -> lenN data <= 125
  | _ => True
  end.
Definition closing (pc : upc) (c : bool) : Prop :=
  match pc with UCloseT _ _ => True | UCloseWrite _ _ => c = false | _ => False end.
Definition fmove (pc pc' : upc) st st' : Prop :=
  (forall w, done_fut (p_frags st) w -> done_fut (p_frags st') w) /\
  (forall w m, pc' = USendFrag w m -> p_frag st' = Some w) /\
  (samefrag st st' /\ (fragmenting pc' <-> fragmenting pc) \/
   p_frag st = None /\ (exists w, p_frag st' = Some w /\ pending (p_frags st') w) /\ fragmenting pc' \/
   p_frag st' = None /\ ~ fragmenting pc' /\ (forall w, p_frag st = Some w -> done_fut (p_frags st') w /\ fragmenting pc)).
Definition pmove st st' : Prop :=
  (forall w, done_fut (p_puts st) w -> done_fut (p_puts st') w) /\
  (sameput st st' \/ forall w, p_put st = Some w -> done_fut (p_puts st') w).
Definition umove (i : nat) (pc : upc) (c : bool) st st' (pc' : upc) : Prop :=
  p_users st' = replace i (pc', false) (p_users st) /\
  p_T st' = p_T st /\ p_lost st' = p_lost st /\
  (p_C st <> CNone -> p_C st' <> CNone) /\ (p_Tcancel st = true -> p_Tcancel st' = true) /\
  (p_state st' = p_state st \/ p_state st = Open /\ p_state st' = Closing /\ (Tend st' \/ exists d t, pc' = UCloseWrite d t)) /\
  okpc st' pc' /\ fmove pc pc' st st' /\ pmove st st' /\
  (closing pc c -> closing pc' false \/ (mild st -> T_exists st = true -> Tend st')).

Lemma sameput_pmove st st' : sameput st st' -> pmove st st'.
Proof. intros (A & B & C). split; [rewrite B; auto|left; repeat split; assumption]. Qed.
Lemma um_set i pc c st st1 pc' :
  quiet st st1 -> samefrag st st1 -> pmove st st1 -> okpc st1 pc' -> (fragmenting pc' <-> fragmenting pc) ->
  (forall w m, pc' = USendFrag w m -> p_frag st1 = Some w) ->
  (closing pc c -> closing pc' false \/ (mild st -> T_exists st = true -> Tend st1)) ->
  umove i pc c st (set_user i pc' st1) pc'.
Proof.
  intros (A1 & A2 & A3 & A4 & A5 & A6) F P O G U C. unfold umove.
  cbn [set_user set_users p_users p_T p_lost p_C p_Tcancel p_state]. rewrite A1.
  split; [reflexivity|]. split; [exact A2|]. split; [exact A3|]. split; [exact A4|]. split; [exact A5|].
  split; [destruct A6 as [A6|(A6 & A7 & A8)]; [now left|right; split; [exact A6|]; split; [exact A7|]; left; exact A8]|].
  split; [destruct pc'; exact O|]. split.
  { unfold fmove. cbn [set_user set_users p_frag p_frags]. split; [destruct F as [_ ->]; auto|]. split; [exact U|].
    left. split; [exact F|exact G]. }
  split; [exact P|]. intros K. destruct (C K) as [K1|K1]; [now left|right; exact K1].
Qed.
(* in the middle of a fragmented message *)
Definition mid (pc : upc) st st1 (w : nat) : Prop :=
  quiet st st1 /\ sameput st st1 /\ p_frag st1 = Some w /\ pending (p_frags st1) w /\
  (forall w0, done_fut (p_frags st) w0 -> done_fut (p_frags st1) w0) /\
  (samefrag st st1 /\ fragmenting pc \/ p_frag st = None).
Lemma mid_quiet pc st st1 st2 w : mid pc st st1 w -> quiet st1 st2 -> samefrag st1 st2 -> sameput st1 st2 -> mid pc st st2 w.
Proof.
  intros (A1 & A2 & A3 & A4 & A5 & A6) Q (F1 & F2) (P1 & P2 & P3).
  split; [eapply quiet_trans; eauto|]. split; [destruct A2 as (? & ? & ?); repeat split; congruence|].
  rewrite F1, F2. split; [exact A3|]. split; [exact A4|]. split; [exact A5|].
  destruct A6 as [[[B1 B2] B3]|A6]; [left; split; [split; congruence|exact B3]|now right].
Qed.
Lemma mid_set i pc c st st1 w pc' : mid pc st st1 w -> fragmenting pc' -> pc' <> UFragEnsure -> ~ closing pc c ->
  umove i pc c st (set_user i pc' st1) pc'.
Proof.
  intros ((A1 & A2 & A3 & A4 & A5 & A6) & P & B1 & B2 & B3 & B4) F N C. unfold umove.
  cbn [set_user set_users p_users p_T p_lost p_C p_Tcancel p_state]. rewrite A1.
  split; [reflexivity|]. split; [exact A2|]. split; [exact A3|]. split; [exact A4|]. split; [exact A5|].
  split; [destruct A6 as [A6|(A6 & A7 & A8)]; [now left|right; split; [exact A6|]; split; [exact A7|]; left; exact A8]|].
  split; [destruct pc' as [| | | | | | | |[]| | | | | | | |]; cbn [fragmenting] in F; try contradiction; try exact Logic.I; congruence|].
  split.
  { unfold fmove. cbn [set_user set_users p_frag p_frags]. split; [exact B3|].
    split; [intros w0 m ->; destruct F|].
    destruct B4 as [[B4 B5]|B4]; [left; tauto|right; left]. split; [exact B4|]. split; [now exists w|exact F]. }
  split; [now apply sameput_pmove|]. contradiction.
Qed.
Lemma done_replace_fut futs w w0 : done_fut futs w0 -> done_fut (replace w FResult futs) w0.
Proof.
  unfold done_fut, get_fut. revert w w0. induction futs as [|x futs IH]; intros w w0; [destruct w; auto|].
  destruct w, w0; cbn [replace nth]; auto.
Qed.
Lemma done_replaced futs w : pending futs w -> done_fut (replace w FResult futs) w.
Proof.
  intros H. unfold done_fut. erewrite get_fut_nth; [|apply nth_error_replace_eq; eapply pending_lt, H]. reflexivity.
Qed.
Lemma mid_end i pc c st st1 w r : mid pc st st1 w -> ~ closing pc c ->
  umove i pc c st (end_fragments st1 i r) (UDone r).
Proof.
  intros ((A1 & A2 & A3 & A4 & A5 & A6) & P & B1 & B2 & B3 & B4) C. unfold end_fragments.
  rewrite B1. rewrite (set_result_pending _ _ B2). unfold umove, return_.
  cbn [set_user set_users set_frag set_frags p_users p_T p_lost p_C p_Tcancel p_state]. rewrite A1.
  split; [reflexivity|]. split; [exact A2|]. split; [exact A3|]. split; [exact A4|]. split; [exact A5|].
  split; [destruct A6 as [A6|(A6 & A7 & A8)]; [now left|right; split; [exact A6|]; split; [exact A7|]; left; exact A8]|].
  split; [exact Logic.I|]. split.
  { unfold fmove. cbn [set_user set_users set_frag set_frags p_frag p_frags].
    split; [intros w0 D; now apply done_replace_fut, B3|]. split; [discriminate|].
    right. right. split; [reflexivity|]. split; [intros []|]. intros w0 H0.
    destruct B4 as [[[B4 _] B5]|B4]; [|congruence]. split; [|exact B5].
    assert (w0 = w) as -> by congruence. now apply done_replaced. }
  split; [apply sameput_pmove; exact P|]. contradiction.
Qed.
Lemma quiet_opened st st1 : quiet st st1 -> opened st -> opened st1.
Proof.
  intros (_ & A2 & _ & _ & _ & A6) O S. unfold T_exists. rewrite A2.
  apply O. destruct A6 as [A6|(A6 & A7 & _)]; congruence.
Qed.
Lemma mid_raise i pc c st st1 w e : opened st -> mid pc st st1 w -> ~ closing pc c ->
  exists r, umove i pc c st (raise_fragments X cfg st1 i e) (UDone r).
Proof.
  intros O M C. unfold raise_fragments.
  assert (G : exists r, umove i pc c st (let '(st2, e') := fail_connection X cfg st1 1011 in
    end_fragments st2 i (RRaise (match e' with Some e' => PyExn e' | None => e end))) (UDone r)).
  { destruct (fail_connection _ _ _ _) as [st2 e2] eqn:F.
    destruct (fail_quiet _ _ _ _ (quiet_opened _ _ (proj1 M) O) F) as (Q1 & Q2 & Q3 & _).
    eexists. eapply mid_end; [eapply mid_quiet; eauto|exact C]. }
  destruct e; try exact G. eexists. eapply mid_end; eauto.
Qed.
Lemma mid_item i pc c st st1 w op rest d : opened st -> mid pc st st1 w -> ~ closing pc c ->
  exists pc', umove i pc c st (send_item X cfg st1 i op rest d) pc'.
Proof.
  intros O M C. unfold send_item.
  assert (R : forall st2 e, mid pc st st2 w -> exists pc', umove i pc c st (raise_fragments X cfg st2 i e) pc').
  { intros st2 e M2. destruct (mid_raise i pc c st st2 w e O M2 C) as [r H]. eauto. }
  destruct (prepare_data d) as [[op' data]|e]; [|now apply R].
  destruct (negb _); [now apply R|].
  destruct (write_frame _ _ _ _ _ _ _ _) as [st2 e2] eqn:W.
  destruct (write_frame_quiet _ _ _ _ _ _ _ _ W) as (Q1 & Q2 & Q3).
  pose proof (mid_quiet _ _ _ _ _ M Q1 Q2 Q3) as M2.
  destruct e2; [now apply R|]. eexists. apply (mid_set i pc c st st2 w); [exact M2|exact Logic.I|discriminate|exact C].
Qed.
Lemma mid_last i pc c st st1 w : opened st -> mid pc st st1 w -> ~ closing pc c ->
  exists pc', umove i pc c st (send_last X cfg st1 i) pc'.
Proof.
  intros O M C. unfold send_last.
  destruct (write_frame _ _ _ _ _ _ _ _) as [st2 e2] eqn:W.
  destruct (write_frame_quiet _ _ _ _ _ _ _ _ W) as (Q1 & Q2 & Q3).
  pose proof (mid_quiet _ _ _ _ _ M Q1 Q2 Q3) as M2.
  destruct e2; [destruct (mid_raise i pc c st st2 w (PyExn e) O M2 C) as [r H]; eauto|].
  eexists. apply (mid_set i pc c st st2 w); [exact M2|exact Logic.I|discriminate|exact C].
Qed.
Lemma mid_next i pc c st st1 w op src : opened st -> mid pc st st1 w -> ~ closing pc c ->
  exists pc', umove i pc c st (send_next X cfg st1 i op src) pc'.
Proof.
  intros O M C. unfold send_next. destruct src as [[|d rest] [e|]|].
  - destruct (mid_raise i pc c st st1 w (PyExn e) O M C) as [r H]. eauto.
  - eapply mid_last; eauto.
  - eapply mid_item; eauto.
  - eapply mid_item; eauto.
  - eexists. apply (mid_set i pc c st st1 w); [exact M|exact Logic.I|discriminate|exact C].
Qed.
Lemma um_first i pc c st rest d : opened st -> p_frag st = None -> ~ closing pc c -> ~ fragmenting pc ->
  exists pc', umove i pc c st (send_first X cfg st i rest d) pc'.
Proof.
  intros O Hf C Nf. unfold send_first. destruct (prepare_data d) as [[op data]|e].
  - cbv zeta. destruct (write_frame _ _ _ _ _ _ _ _) as [st2 e2] eqn:W.
    destruct (write_frame_quiet _ _ _ _ _ _ _ _ W) as (Q1 & Q2 & Q3).
    assert (M0 : mid pc st (set_frag (Some (length (p_frags st))) (set_frags (p_frags st ++ [FPending]) st)) (length (p_frags st))).
    { split; [unfold quiet; cbn [set_frag set_frags p_users p_T p_lost p_C p_Tcancel p_state]; auto 10|].
      split; [repeat split|]. split; [reflexivity|]. split; [apply pending_new|]. split; [|now right].
      cbn [set_frag set_frags p_frags]. intros w0 D. unfold done_fut, get_fut in *.
      destruct (Nat.lt_ge_cases w0 (length (p_frags st))) as [L|G].
      - now rewrite app_nth1.
      - rewrite nth_overflow in D by exact G. discriminate. }
    pose proof (mid_quiet _ _ _ _ _ M0 Q1 Q2 Q3) as M2.
    destruct e2; [destruct (mid_raise i pc c st st2 _ (PyExn e) O M2 C) as [r H]; eauto|].
    eexists. apply (mid_set i pc c st st2 (length (p_frags st))); [exact M2|exact Logic.I|discriminate|exact C].
  - eexists. apply um_set; [apply quiet_refl|split; reflexivity|apply sameput_pmove; repeat split|exact Logic.I| |discriminate|contradiction].
    cbn [fragmenting]. tauto.
Qed.

Lemma um_stay i pc c st pc' : okpc st pc' -> ~ fragmenting pc' -> ~ fragmenting pc ->
  (forall w m, pc' = USendFrag w m -> p_frag st = Some w) -> ~ closing pc c -> umove i pc c st (set_user i pc' st) pc'.
Proof.
  intros O F1 F2 U C. apply um_set; [apply quiet_refl|split; reflexivity|apply sameput_pmove; repeat split|exact O|tauto|exact U|].
  contradiction.
Qed.
Lemma um_quiet i pc c st st1 pc' : quiet st st1 /\ samefrag st st1 /\ sameput st st1 ->
  okpc st1 pc' -> ~ fragmenting pc' -> ~ fragmenting pc ->
  (forall w m, pc' <> USendFrag w m) ->
  (closing pc c -> closing pc' false \/ (mild st -> T_exists st = true -> Tend st1)) ->
  umove i pc c st (set_user i pc' st1) pc'.
Proof.
  intros (Q & F & P) O F1 F2 U C. apply um_set; [exact Q|exact F|now apply sameput_pmove|exact O|tauto| |exact C].
  intros w m K. contradiction (U w m).
Qed.
Lemma um_send_loop i pc c st m : opened st -> ~ closing pc c -> ~ fragmenting pc ->
  exists pc', umove i pc c st (send_loop X cfg st i m) pc'.
Proof.
  intros O C Nf. unfold send_loop.
  assert (S1 : forall pc', okpc st pc' -> ~ fragmenting pc' -> (forall w m, pc' <> USendFrag w m) ->
    exists pc'', umove i pc c st (set_user i pc' st) pc'').
  { intros pc' A B D. exists pc'. apply um_stay; auto. intros w m0 K. contradiction (D w m0). }
  destruct (p_frag st) as [w|] eqn:Hf.
  - eexists. apply um_stay; [exact Logic.I|intros []|exact Nf| |exact C]. intros w0 m0 K. congruence.
  - destruct m as [d| |[|d rest] [e|]| |]; try (apply S1; [exact Logic.I|intros []|discriminate]);
      [|now apply um_first|now apply um_first].
    destruct (prepare_data d) as [[op data]|e]; [|apply S1; [exact Logic.I|intros []|discriminate]].
    destruct (write_frame _ _ _ _ _ _ _ _) as [st2 e2] eqn:W. apply write_frame_quiet in W.
    destruct e2; eexists; (apply um_quiet; [exact W|exact Logic.I|intros []|exact Nf|discriminate|contradiction]).
Qed.
Lemma deadline_some st : deadline st (c_close_timeout cfg) <> None.
Proof. unfold deadline. destruct (c_close_timeout cfg); [discriminate|contradiction]. Qed.
Lemma um_wait_T i pc c st st1 t : quiet st st1 /\ samefrag st st1 /\ sameput st st1 -> ~ fragmenting pc ->
  exists pc', umove i pc c st (close_wait_T cfg st1 i t) pc'.
Proof.
  intros Q Nf. unfold close_wait_T. destruct (T_exists st1) eqn:Te; eexists.
  - apply um_quiet; [exact Q|split; [exact Te|apply deadline_some]|intros []|exact Nf|discriminate|]. left. exact Logic.I.
  - apply um_quiet; [exact Q|exact Logic.I|intros []|exact Nf|discriminate|]. intros _. right. intros _ T.
    destruct Q as ((_ & A & _) & _). unfold T_exists in *. rewrite A in Te. congruence.
Qed.
Lemma um_timed_out i pc c st t : opened st -> ~ fragmenting pc ->
  exists pc', umove i pc c st (close_timed_out X cfg st i t) pc'.
Proof.
  intros O Nf. unfold close_timed_out. destruct (fail_connection _ _ _ _) as [st2 e2] eqn:F.
  destruct (fail_quiet _ _ _ _ O F) as (Q1 & Q2 & Q3 & _). now apply um_wait_T.
Qed.
Lemma um_close_start i c st code reason : opened st -> okpc st (UStart (CallClose code reason)) ->
  exists pc', umove i (UStart (CallClose code reason)) c st (close_start X cfg st i code reason) pc'.
Proof.
  intros O K. unfold close_start. cbn [okpc] in K.
  destruct (serialize_close code reason) as [data|e];
    [|eexists; apply um_stay; [exact Logic.I|intros []|intros []|discriminate|intros []]].
  specialize (K data eq_refl).
  assert (G : exists pc', umove i (UStart (CallClose code reason)) c st
    (match write_close_frame X cfg st (ByCall i) data with
       | (st, None) => close_wait_T cfg st i (p_now st)
       | (st, Some (Some e)) => raise_ i (PyExn e) st
       | (st, Some None) => set_user i (UCloseWrite (deadline st (c_close_timeout cfg)) (p_now st)) st
       end) pc').
  { unfold write_close_frame. destruct (is_open (p_state st)) eqn:Op.
    - unfold write_frame. cbn [set_state p_state pstate_eqb negb].
      destruct (write_control X cfg AC Keys (set_state Closing st) (ByCall i) CLOSE data eq_refl K) as (exts & w & ->).
      eexists. unfold umove.
      cbn [set_user set_users set_out set_exts set_state p_users p_T p_lost p_C p_Tcancel p_state p_frag p_frags].
      split; [reflexivity|]. do 4 (split; [auto|]).
      split; [right; split; [destruct (p_state st); try discriminate; reflexivity|]; split; [reflexivity|]; right; eauto|].
      split; [apply deadline_some|]. split.
      { split; [auto|]. split; [discriminate|]. left. split; [split; reflexivity|]. cbn [fragmenting]. tauto. }
      split; [apply sameput_pmove; repeat split|intros []].
    - apply um_wait_T; [|intros []]. split; [apply quiet_refl|]. repeat split. }
  assert (TO : exists pc', umove i (UStart (CallClose code reason)) c st (close_timed_out X cfg st i (p_now st)) pc')
    by (apply um_timed_out; [exact O|intros []]).
  destruct (c_close_timeout cfg) as [[|q]|]; [exact TO|exact G|exact G].
Qed.
Lemma done_app futs w x : done_fut futs w -> done_fut (futs ++ [x]) w.
Proof.
  unfold done_fut, get_fut. intros D. destruct (Nat.lt_ge_cases w (length futs)) as [L|G].
  - now rewrite app_nth1.
  - rewrite nth_overflow in D by exact G. discriminate.
Qed.
Lemma um_recv_loop i pc c st st1 : (forall w, p_put st = Some w -> pending (p_puts st) w) -> quiet st st1 /\ samefrag st st1 /\ sameput st st1 -> ~ fragmenting pc -> ~ closing pc c ->
  exists pc', umove i pc c st (recv_loop st1 i) pc'.
Proof.
  intros W (Q & F & P) Nf C. unfold recv_loop.
  assert (G : forall st2 pc', quiet st1 st2 -> samefrag st1 st2 -> pmove st st2 -> okpc st2 pc' -> ~ fragmenting pc' ->
    (forall w m, pc' <> USendFrag w m) -> exists pc'', umove i pc c st (set_user i pc' st2) pc'').
  { intros st2 pc' A B D O N U. exists pc'.
    apply um_set; [eapply quiet_trans; eauto|destruct F, B; split; congruence|exact D|exact O|tauto| |contradiction].
    intros w m K. contradiction (U w m). }
  destruct P as (P1 & P2 & P3).
  destruct (p_messages st1) as [|m rest] eqn:Hm.
  - cbv zeta. match goal with |- context [T_exists ?s] => destruct (T_exists s) eqn:Te end;
      (apply G; [unfold quiet; cbn; auto 10|split; reflexivity|apply sameput_pmove; cbn; split; [exact P1|split; [exact P2|cbn; congruence]]|
        |intros []|discriminate]); [exact Te|exact Logic.I].
  - cbn [set_messages p_put p_puts]. destruct (p_put st1) as [w|] eqn:Hp.
    + unfold set_result. destruct (fut_done (get_fut (p_puts st1) w)) eqn:D.
      * apply G; [unfold quiet; cbn; auto 10|split; reflexivity| |exact Logic.I|intros []|discriminate].
        split; cbn [set_messages p_puts]; rewrite P2; [auto|]. right. intros w0 H0.
        assert (w0 = w) as -> by congruence. unfold done_fut. now rewrite <- P2.
      * apply G; [unfold quiet; cbn; auto 10|split; reflexivity| |exact Logic.I|intros []|discriminate].
        cbn [set_delivered set_put set_puts]. split; cbn [p_puts set_delivered set_put set_puts]; rewrite P2.
        { intros w0. apply done_replace_fut. }
        right. intros w0 H0. assert (w0 = w) as -> by congruence.
        apply done_replaced. apply W. congruence.
    + apply G; [unfold quiet; cbn; auto 10|split; reflexivity| |exact Logic.I|intros []|discriminate].
      split; cbn [set_messages set_delivered p_puts]; rewrite P2; [auto|]. right. intros w0 H0. congruence.
Qed.

Definition started st : Prop :=
  (p_state st = Open \/ p_state st = Closing -> T_exists st = true) /\ (T_exists st = true -> p_C st <> CNone) /\
  (p_C st = CWaitT -> T_exists st = true).
Lemma started_opened st : started st -> opened st.
Proof. intros [A _] S. apply A. now left. Qed.
Lemma ensure_wait st : started st -> ensure_open st = EWait -> p_C st <> CNone.
Proof.
  intros (A & B & _) H. apply B, A. unfold ensure_open in H. destruct (p_state st); try discriminate; auto.
Qed.
Ltac stay := apply um_stay; [try exact Logic.I|intros []|intros []|discriminate|intros []].
Lemma um_start_call i c st cl a st' : started st -> Lost st -> (forall w, p_put st = Some w -> pending (p_puts st) w) ->
  okpc st (UStart cl) -> start_call X cfg st i cl a = Some st' -> exists pc', umove i (UStart cl) c st st' pc'.
Proof.
  intros S0 L W K H. pose proof (started_opened _ S0) as O.
  unfold start_call in H. destruct cl as [|m|code reason|data|data|]; destruct a; try discriminate; try (apply some_inj in H as <-).
  - destruct (p_pop st); [eexists; stay|]. apply um_recv_loop; [exact W| |intros []|intros []].
    split; [apply quiet_refl|repeat split].
  - destruct (ensure_open st) eqn:Q; [|eexists; stay|eexists; stay; exact (ensure_wait _ S0 Q)].
    apply um_send_loop; [exact O|intros []|intros []].
  - now apply um_close_start.
  - destruct (ensure_open st) eqn:Q;
      [|apply some_inj in H as <-; eexists; stay|apply some_inj in H as <-; eexists; stay; exact (ensure_wait _ S0 Q)].
    destruct data as [d|].
    + destruct (prepare_ctrl d); [|apply some_inj in H as <-; eexists; stay].
      destruct (has_ping _ _); [apply some_inj in H as <-; eexists; stay|].
      destruct (start_ping _ _ _ _ _) as [st2 e] eqn:P. apply start_ping_quiet in P.
      destruct e; apply some_inj in H as <-; eexists;
        (apply um_quiet; [exact P|exact Logic.I|intros []|intros []|discriminate|intros []]).
    + destruct (random_ok _ _); [|discriminate].
      destruct (start_ping _ _ _ _ _) as [st2 e] eqn:P. apply start_ping_quiet in P.
      destruct e; apply some_inj in H as <-; eexists;
        (apply um_quiet; [exact P|exact Logic.I|intros []|intros []|discriminate|intros []]).
  - destruct (ensure_open st) eqn:Q; [|eexists; stay|eexists; stay; exact (ensure_wait _ S0 Q)].
    destruct (prepare_ctrl data); [|eexists; stay].
    destruct (write_frame _ _ _ _ _ _ _ _) as [st2 e] eqn:P. apply write_frame_quiet in P.
    destruct e; eexists; (apply um_quiet; [exact P|exact Logic.I|intros []|intros []|discriminate|intros []]).
  - eexists; stay.
Qed.
(* what's known of the fragmented message in progress *)
Definition Frag1 st (pc : upc) : Prop := fragmenting pc -> exists w, p_frag st = Some w /\ pending (p_frags st) w.
Lemma Frag1_mid st pc : Frag1 st pc -> fragmenting pc -> exists w, mid pc st st w.
Proof.
  intros F D. destruct (F D) as (w & A & B). exists w. split; [apply quiet_refl|]. split; [repeat split|].
  split; [exact A|]. split; [exact B|]. split; [auto|]. left. split; [split; reflexivity|exact D].
Qed.
Lemma um_cancel_call i st pc : started st -> okpc st pc -> Frag1 st pc -> (forall r, pc <> UDone r) ->
  exists pc', umove i pc true st (cancel_call X cfg st i pc) pc'.
Proof.
  intros S0 K F D. pose proof (started_opened _ S0) as O.
  assert (R : fragmenting pc -> exists pc', umove i pc true st (raise_fragments X cfg st i CancelledError) pc').
  { intros Fr. destruct (Frag1_mid _ _ F Fr) as (w & M).
    destruct (mid_raise i pc true st st w CancelledError O M) as [r H]; [|eauto].
    destruct pc; cbn in *; tauto. }
  destruct pc as [cl|w|w m| | |op src| | |[op|]|data|d t0|d t0|d t0|t0|t0| |r]; cbn [cancel_call];
    try (apply R; exact Logic.I); try (eexists; stay; fail).
  - eexists. apply um_set; [unfold quiet; cbn; auto 10|split; reflexivity|apply sameput_pmove; repeat split|exact Logic.I
      |cbn; tauto|discriminate|intros []].
  - eexists. apply um_stay; [exact Logic.I|intros []|intros []|discriminate|]. cbn. discriminate.
  - cbn [okpc] in K. destruct K as [K _]. eexists. apply um_quiet; [apply cancel_T_quiet| |intros []|intros []|discriminate|].
    + cbn [okpc]. unfold T_exists in *. destruct (cancel_T_quiet st) as ((_ & -> & _) & _). exact K.
    + intros _. right. intros _ _. now apply cancel_T_Tend.
  - eexists. apply um_stay; [exact K|intros []|intros []|discriminate|intros []].
Qed.
Lemma um_step_call i st pc a st' : started st -> Lost st -> (forall w, p_put st = Some w -> pending (p_puts st) w) ->
  okpc st pc -> Frag1 st pc -> (pc = UANext None -> forall d, a = Next (Item d) -> p_frag st = None) ->
  step_call X cfg st i pc a = Some st' -> exists pc', umove i pc false st st' pc'.
Proof.
  intros S0 L W K F Ov H. pose proof (started_opened _ S0) as O.
  destruct pc as [cl|w|w m| | |op src| | |[op|]|data|d t0|d t0|d t0|t0|t0| |r]; cbn [step_call] in H.
  - eapply um_start_call; eauto.
  - destruct a; try discriminate. destruct (_ || _); [|discriminate]. apply some_inj in H as <-.
    unfold recv_resume. cbv zeta.
    assert (Q : quiet st (set_pop None st) /\ samefrag st (set_pop None st) /\ sameput st (set_pop None st))
      by (split; [unfold quiet; cbn; auto 10|repeat split]).
    destruct (fut_done _); [apply um_recv_loop; [exact W|exact Q|intros []|intros []]|].
    destruct (c_legacy_recv cfg);
      [eexists; apply um_quiet; [exact Q|exact Logic.I|intros []|intros []|discriminate|intros []]|].
    destruct (ensure_open _) eqn:Eo;
      [apply um_recv_loop; [exact W|exact Q|intros []|intros []]
      |eexists; apply um_quiet; [exact Q|exact Logic.I|intros []|intros []|discriminate|intros []]
      |eexists; apply um_quiet; [exact Q| |intros []|intros []|discriminate|intros []]].
    exact (ensure_wait st S0 Eo).
  - destruct a; try discriminate. destruct (fut_done _); [|discriminate]. apply some_inj in H as <-.
    apply um_send_loop; [exact O|intros []|intros []].
  - destruct a; try discriminate. destruct (ensure_open_end st); [|discriminate]. apply some_inj in H as <-. eexists; stay.
  - destruct (after_drain X cfg st a) as [[st2 r]|] eqn:D; [|discriminate].
    destruct (after_drain_quiet _ _ _ _ O L D) as (Q1 & Q2 & Q3 & Q4).
    destruct r; [| |contradiction]; apply some_inj in H as <-; eexists;
      (apply um_quiet; [auto|exact Logic.I|intros []|intros []|discriminate|intros []]).
  - destruct (after_drain X cfg st a) as [[st2 r]|] eqn:D; [|discriminate].
    destruct (after_drain_quiet _ _ _ _ O L D) as (Q1 & Q2 & Q3 & Q4).
    destruct (Frag1_mid _ _ F Logic.I) as (w & M). pose proof (mid_quiet _ _ _ _ _ M Q1 Q2 Q3) as M2.
    destruct r; [| |contradiction]; apply some_inj in H as <-.
    + eapply mid_next; [exact O|exact M2|intros []].
    + destruct (mid_raise i (UFragDrain op src) false st st2 w e O M2) as [r H]; [intros []|eauto].
  - destruct (after_drain X cfg st a) as [[st2 r]|] eqn:D; [|discriminate].
    destruct (after_drain_quiet _ _ _ _ O L D) as (Q1 & Q2 & Q3 & Q4).
    destruct (Frag1_mid _ _ F Logic.I) as (w & M). pose proof (mid_quiet _ _ _ _ _ M Q1 Q2 Q3) as M2.
    destruct r; [| |contradiction]; apply some_inj in H as <-.
    + eexists. eapply mid_end; [exact M2|intros []].
    + destruct (mid_raise i UFragLast false st st2 w e O M2) as [r H]; [intros []|eauto].
  - destruct K.
  - destruct (Frag1_mid _ _ F Logic.I) as (w & M).
    destruct a as [| | | | |[]]; try discriminate; apply some_inj in H as <-.
    + eapply mid_item; [exact O|exact M|intros []].
    + eapply mid_last; [exact O|exact M|intros []].
    + destruct (mid_raise i (UANext (Some op)) false st st w (PyExn e) O M) as [r H]; [intros []|eauto].
  - destruct a as [| | | | |[]]; try discriminate; apply some_inj in H as <-; [|eexists; stay..].
    apply um_first; [exact O|now apply (Ov eq_refl d)|intros []|intros []].
  - destruct (after_drain X cfg st a) as [[st2 r]|] eqn:D; [|discriminate].
    destruct (after_drain_quiet _ _ _ _ O L D) as (Q1 & Q2 & Q3 & Q4).
    destruct r; [destruct (find_ping _ _)| |contradiction]; apply some_inj in H as <-; eexists;
      (apply um_quiet; [auto|exact Logic.I|intros []|intros []|discriminate|intros []]).
  - assert (G : match after_drain X cfg st a with
                  | Some (st, EOk) => Some (close_wait_T cfg st i t0)
                  | Some (st, ERaise e) => Some (raise_ i e st)
                  | Some (st, EWait) => Some (set_user i (UCloseEnsure d t0) st)
                  | None => None
                  end = Some st' -> exists pc', umove i (UCloseWrite d t0) false st st' pc').
    { destruct (after_drain X cfg st a) as [[st2 r]|] eqn:D; [|discriminate].
      destruct (after_drain_quiet _ _ _ _ O L D) as (Q1 & Q2 & Q3 & Q4).
      destruct r; [| |contradiction]; intros G; apply some_inj in G as <-.
      - apply um_wait_T; [auto|intros []].
      - eexists. apply um_quiet; [auto|exact Logic.I|intros []|intros []|discriminate|]. intros _. right. exact Q4. }
    destruct a; try (now apply G). destruct (expired st d); [|discriminate]. apply some_inj in H as <-.
    apply um_timed_out; [exact O|intros []].
  - destruct K.
  - destruct K as [K1 K2]. destruct a; try discriminate.
    + destruct (p_T st) as [| | | | | | |[e|]] eqn:HT; try discriminate; apply some_inj in H as <-; eexists;
        (apply um_quiet; [split; [apply quiet_refl|repeat split]| |intros []|intros []|discriminate|]);
        try exact Logic.I; try (intros _; right; intros _ _; left; unfold T_done; now rewrite HT).
      cbn [okpc]. unfold T_exists. now rewrite HT.
    + destruct (expired st d); [|discriminate]. apply some_inj in H as <-. eexists.
      apply um_quiet; [apply cancel_T_quiet| |intros []|intros []|discriminate|].
      * cbn [okpc]. unfold T_exists in *. destruct (cancel_T_quiet st) as ((_ & -> & _) & _). exact K1.
      * intros _. right. intros _ _. now apply cancel_T_Tend.
  - destruct a; try discriminate. destruct (T_done st); [|discriminate]. apply some_inj in H as <-.
    eexists. apply um_stay; [exact K|intros []|intros []|discriminate|intros []].
  - destruct a; try discriminate. destruct (p_C st) as [| | | | | | |[e|]]; try discriminate; apply some_inj in H as <-; eexists; stay.
  - destruct a; try discriminate. destruct (is_lost st); [|discriminate]. apply some_inj in H as <-. eexists; stay.
  - discriminate.
Qed.

(** A step of a task *)
Definition tmove st st' : Prop :=
  p_users st' = p_users st /\ samefrag st st' /\ p_lost st' = p_lost st /\ (p_C st <> CNone -> p_C st' <> CNone) /\
  T_exists st' = true /\ (forall c, p_T st' <> TCloseEnsure c) /\
  (forall m w, p_T st' = TPut m w -> p_put st' = Some w /\ pending (p_puts st') w /\ queue_full cfg st') /\
  (T_done st' = true \/ (exists c, p_T st' = TCloseDrain c) \/
   p_state st' = p_state st /\ p_Tcancel st = false /\ (forall c, p_T st <> TCloseDrain c) /\
   (forall c, p_T st' = TPongEnsure c -> p_state st = Closing)).
Lemma T_raise_move st st1 e : opened st1 -> p_users st1 = p_users st -> samefrag st st1 -> p_lost st1 = p_lost st ->
  p_C st1 = p_C st \/ (p_C st <> CNone -> p_C st1 <> CNone) -> tmove st (T_raise X cfg st1 e).
Proof.
  intros O U F L C.
  assert (C' : p_C st <> CNone -> p_C st1 <> CNone) by (destruct C as [->|C]; auto).
  assert (G : forall st2 e', quiet st1 st2 -> samefrag st1 st2 -> tmove st (set_T (TDone e') st2)).
  { intros st2 e' (A1 & A2 & A3 & A4 & A5 & A6) [F1 F2]. unfold tmove, samefrag.
    cbn [set_T p_users p_frag p_frags p_lost p_C p_T]. destruct F as [F3 F4].
    split; [congruence|]. split; [split; congruence|]. split; [congruence|]. split; [auto|].
    split; [reflexivity|]. split; [discriminate|]. split; [discriminate|]. left. reflexivity. }
  assert (G2 : tmove st (let '(st2, e') := fail_connection X cfg st1 (fail_code e) in set_T (TDone e') st2)).
  { destruct (fail_connection _ _ _ _) as [st2 e'] eqn:Q. destruct (fail_quiet _ _ _ _ O Q) as (Q1 & Q2 & _). now apply G. }
  unfold T_raise. destruct e; try exact G2. apply G; [apply quiet_refl|split; reflexivity].
Qed.
Lemma after_close_move st st1 c : opened st1 -> p_users st1 = p_users st -> samefrag st st1 -> p_lost st1 = p_lost st ->
  p_C st1 = p_C st \/ (p_C st <> CNone -> p_C st1 <> CNone) -> tmove st (after_close X cfg st1 c).
Proof.
  intros O U F L C. unfold after_close. destruct c; try (now apply T_raise_move).
  exact (T_raise_move st st1 CancelledError O U F L C).
Qed.
Lemma not_room st : room cfg st = false -> queue_full cfg st.
Proof.
  unfold room, queue_full. destruct (c_max_queue cfg) as [n|]; [|discriminate]. intros H. exists n. split; [reflexivity|].
  now apply N.ltb_ge in H.
Qed.
Lemma put_message_move st st1 m : opened st1 -> p_users st1 = p_users st -> samefrag st st1 -> p_lost st1 = p_lost st ->
  p_C st1 = p_C st -> p_state st1 = p_state st -> p_Tcancel st = false -> (forall c, p_T st <> TCloseDrain c) ->
  tmove st (put_message X cfg st1 m).
Proof.
  intros O U F L C S0 Nc Nd. unfold put_message.
  assert (R : forall st2, p_users st2 = p_users st1 -> samefrag st1 st2 -> p_lost st2 = p_lost st1 -> p_C st2 = p_C st1 ->
    p_state st2 = p_state st1 -> tmove st (set_T (TRead RFirst) st2)).
  { intros st2 A1 [A2 A3] A4 A5 A6. destruct F as [F1 F2]. unfold tmove, samefrag.
    cbn [set_T p_users p_frag p_frags p_lost p_C p_T p_state].
    split; [congruence|]. split; [split; congruence|]. split; [congruence|]. split; [congruence|].
    split; [reflexivity|]. split; [discriminate|]. split; [discriminate|]. right. right.
    split; [congruence|]. split; [exact Nc|]. split; [exact Nd|]. discriminate. }
  destruct (room cfg st1) eqn:Rm.
  - cbv zeta. cbn [set_messages p_pop p_pops]. destruct (p_pop st1); [destruct (set_result _ _)|].
    + now apply R.
    + apply T_raise_move; auto.
    + now apply R.
  - destruct F as [F1 F2]. unfold tmove, samefrag. cbn [set_T set_put set_puts p_users p_frag p_frags p_lost p_C p_T p_state p_put p_puts].
    split; [exact U|]. split; [split; assumption|]. split; [exact L|]. split; [congruence|].
    split; [reflexivity|]. split; [discriminate|]. split.
    { intros m0 w0 Q. injection Q as <- <-. split; [reflexivity|]. split; [apply pending_new|]. exact (not_room _ Rm). }
    right. right. split; [exact S0|]. split; [exact Nc|]. split; [exact Nd|]. discriminate.
Qed.
Lemma on_frame_move st st1 c f : opened st1 -> p_users st1 = p_users st -> samefrag st st1 -> p_lost st1 = p_lost st ->
  p_C st1 = p_C st -> p_state st1 = p_state st -> p_Tcancel st = false -> T_done st = false -> p_T st1 = p_T st ->
  (forall c, p_T st <> TCloseDrain c) -> tmove st (on_frame X cfg st1 c f).
Proof.
  intros O U F L C S0 Nc Ndn HT Nd.
  assert (R : forall st2 c, p_users st2 = p_users st1 -> samefrag st1 st2 -> p_lost st2 = p_lost st1 -> p_C st2 = p_C st1 ->
    p_state st2 = p_state st1 -> tmove st (set_T (TRead c) st2) /\ tmove st (set_T (TPongDrain c) st2)).
  { intros st2 c0 A1 [A2 A3] A4 A5 A6. destruct F as [F1 F2]. unfold tmove, samefrag.
    cbn [set_T p_users p_frag p_frags p_lost p_C p_T p_state].
    split; (split; [congruence|]; split; [split; congruence|]; split; [congruence|]; split; [congruence|];
    split; [reflexivity|]; split; [discriminate|]; split; [discriminate|]; right; right;
    split; [congruence|]; split; [exact Nc|]; split; [exact Nd|]; discriminate). }
  assert (D : tmove st (match read_message cfg c f with
      | RMsg m => put_message X cfg st1 m | RNext c => set_T (TRead c) st1 | RExn e => T_raise X cfg st1 (PyExn e) end)).
  { destruct (read_message cfg c f); [now apply put_message_move|apply R; auto; split; reflexivity|apply T_raise_move; auto]. }
  unfold on_frame. destruct (f_opcode f); try exact D.
  - destruct (parse_close _) as [cl|e]; [|apply T_raise_move; auto].
    unfold write_close_frame. cbn [set_close p_state]. destruct (is_open (p_state st1)).
    + destruct (write_frame _ _ _ _ _ _ _ _) as [st2 e2] eqn:W. apply write_frame_shape in W as (o & x & ->).
      destruct e2.
      * apply T_raise_move; auto. intros K. discriminate.
      * destruct F as [F1 F2]. unfold tmove, samefrag.
        cbn [set_T set_out set_exts set_state set_close p_users p_frag p_frags p_lost p_C p_T p_state].
        split; [exact U|]. split; [split; assumption|]. split; [exact L|]. split; [congruence|].
        split; [reflexivity|]. split; [discriminate|]. split; [discriminate|]. right. left. eauto.
    + apply after_close_move; auto.
  - destruct (ensure_open st1) eqn:Eo.
    + destruct (write_frame _ _ _ _ _ _ _ _) as [st2 e2] eqn:W. apply write_frame_shape in W as (o & x & ->).
      destruct e2; [apply T_raise_move; auto|]. apply R; try reflexivity. split; reflexivity.
    + apply T_raise_move; auto.
    + destruct F as [F1 F2]. unfold tmove, samefrag. cbn [set_T p_users p_frag p_frags p_lost p_C p_T p_state].
      split; [exact U|]. split; [split; assumption|]. split; [exact L|]. split; [congruence|].
      split; [reflexivity|]. split; [discriminate|]. split; [discriminate|]. right. right.
      split; [exact S0|]. split; [exact Nc|]. split; [exact Nd|]. intros _ _.
      unfold ensure_open in Eo. unfold T_done in *. rewrite HT, S0 in Eo.
      destruct (p_state st); try discriminate; [|reflexivity]. rewrite Ndn in Eo. discriminate.
  - destruct (receive_pong_shape st1 (f_data f)) as (a & b & ->). apply R; try reflexivity. split; reflexivity.
Qed.
Lemma step_T_move st a st' : started st -> Lost st -> (forall c, p_T st <> TCloseEnsure c) ->
  step_T X cfg st a = Some st' -> tmove st st'.
Proof.
  intros S0 L Nt H. pose proof (started_opened _ S0) as O.
  assert (R : forall st1 e, quiet st st1 -> samefrag st st1 -> tmove st (T_raise X cfg st1 e)).
  { intros st1 e Q F. apply T_raise_move; [eapply quiet_opened; eauto|apply Q|exact F|apply Q|right; apply Q]. }
  assert (Rc : forall st1 c, quiet st st1 -> samefrag st st1 -> tmove st (after_close X cfg st1 c)).
  { intros st1 e Q F. apply after_close_move; [eapply quiet_opened; eauto|apply Q|exact F|apply Q|right; apply Q]. }
  assert (Ndn : T_done st = false) by (apply step_T_ends in H; tauto).
  unfold step_T in H. destruct (p_T st) as [|c|c|c|c|c|m w|e] eqn:HT; try discriminate; (destruct (p_Tcancel st) eqn:Nc;
    [destruct a; try discriminate; apply some_inj in H as <-; apply R; (unfold quiet, samefrag; cbn; auto 10)|]).
  - destruct a; try discriminate. unfold read_frame in H.
    assert (G : match run (legacy_read X (negb (c_client cfg)) (read_limit cfg c)) (p_reader st) (p_exts st) with
        | OSusp _ _ _ => None
        | OFail e r exts => Some (T_raise X cfg (set_reader r (set_exts exts st)) (PyExn e))
        | ODone f r exts =>
          let st := set_in (p_in st ++ [f]) (set_reader r (set_exts exts st)) in
          Some (on_frame X cfg st c f)
        end = Some st' -> tmove st st').
    { clear H. destruct (run _ _ _) as [? ? ?|f r ex|e r ex] eqn:Run; cbv zeta; try discriminate; intros H;
        apply some_inj in H as <-.
      - apply on_frame_move; auto; [split; reflexivity|congruence].
      - apply R; [unfold quiet; cbn; auto 10|split; reflexivity]. }
    destruct (p_lost st) as [[o|]|] eqn:Lo; [|now apply G|now apply G].
    apply some_inj in H as <-. apply R; [apply quiet_refl|split; reflexivity].
  - destruct (after_drain X cfg st a) as [[st2 r]|] eqn:D; [|discriminate].
    destruct r; [|destruct (after_drain_quiet _ _ _ _ O L D) as (Q1 & Q2 & Q3 & Q4)..]; [|apply some_inj in H as <-; now apply R|contradiction].
    apply some_inj in H as <-.
    assert (st2 = st) as ->.
    { unfold after_drain in D. destruct a; try discriminate; [congruence|].
      assert (G : p_state st = Closed -> (let '(st2, _) := fail_connection X cfg st 1006 in Some (st2, ensure_open st2)) = Some (st2, EOk) -> False).
      { intros Cl K. destruct (fail_connection _ _ _ _) as [st3 e3] eqn:F. destruct (fail_quiet _ _ _ _ O F) as (Q & _).
        injection K as -> K. destruct Q as (_ & _ & _ & _ & _ & [Sx|(Sx & _)]); [|congruence].
        unfold ensure_open in K. rewrite Sx, Cl in K. discriminate. }
      destruct (p_lost st) as [[[]|]|] eqn:HL; destruct o; try discriminate; contradiction (G (proj1 L ltac:(congruence)) D). }
    unfold tmove, samefrag. cbn [set_T p_users p_frag p_frags p_lost p_C p_T p_state]. do 4 (split; [auto|]).
    split; [reflexivity|]. split; [discriminate|]. split; [discriminate|]. right. right.
    split; [reflexivity|]. split; [exact Nc|]. split; [congruence|discriminate].
  - destruct a; try discriminate. destruct (ensure_open_end st); [|discriminate]. apply some_inj in H as <-.
    apply R; [apply quiet_refl|split; reflexivity].
  - destruct (after_drain X cfg st a) as [[st2 r]|] eqn:D; [|discriminate].
    destruct (after_drain_quiet _ _ _ _ O L D) as (Q1 & Q2 & Q3 & Q4).
    destruct r; [| |contradiction]; apply some_inj in H as <-; [now apply Rc|].
    destruct (is_closed_exn e); [now apply Rc|now apply R].
  - contradiction (Nt c eq_refl).
  - destruct a; try discriminate. destruct (fut_done _); [|discriminate]. apply some_inj in H as <-.
    apply put_message_move; auto; [split; reflexivity|congruence].
Qed.
Lemma step_K_quiet st a st' : started st -> Lost st -> step_K X cfg st a = Some st' ->
  quiet st st' /\ samefrag st st' /\ sameput st st'.
Proof.
  intros S0 L H. pose proof (started_opened _ S0) as O.
  assert (G : forall st2 k, quiet st st2 /\ samefrag st st2 /\ sameput st st2 ->
    quiet st (set_K k st2) /\ samefrag st (set_K k st2) /\ sameput st (set_K k st2)) by (intros st2 k K; exact K).
  assert (R : forall k, quiet st (set_K k st) /\ samefrag st (set_K k st) /\ sameput st (set_K k st))
    by (intros k; apply G; split; [apply quiet_refl|repeat split]).
  unfold step_K in H.
  destruct (p_K st); try discriminate; (destruct (p_Kcancel st);
    [destruct a; try discriminate; apply some_inj in H as <-; apply R|]).
  - destruct a; try discriminate. destruct (c_ping_interval cfg); apply some_inj in H as <-; apply R.
  - destruct a; try discriminate. destruct (_ <=? _); [|discriminate].
    destruct (ensure_open st); [|apply some_inj in H as <-; apply R|apply some_inj in H as <-; apply R].
    destruct (random_ok st r); [|discriminate].
    destruct (start_ping _ _ _ _ _) as [st2 e] eqn:Q. apply start_ping_quiet in Q.
    destruct e; apply some_inj in H as <-; now apply G.
  - destruct (after_drain X cfg st a) as [[st2 r]|] eqn:D; [|discriminate].
    destruct (after_drain_quiet _ _ _ _ O L D) as (Q1 & Q2 & Q3 & Q4).
    destruct r; [| |contradiction]; apply some_inj in H as <-; [|now apply G].
    unfold after_ping. destruct (find_ping _ _); [|now apply G]. destruct (c_ping_timeout cfg); now apply G.
  - destruct a; try discriminate. destruct (ensure_open_end st); [|discriminate].
    apply some_inj in H as <-; apply R.
  - destruct a; try discriminate.
    + destruct (get_fut _ _); try discriminate; apply some_inj in H as <-; apply R.
    + destruct (_ <=? _); [|discriminate].
      destruct (fail_connection _ _ _ _) as [st2 e2] eqn:F.
      destruct (fail_quiet _ _ _ _ O F) as (Q1 & Q2 & Q3 & _). apply some_inj in H as <-. now apply G.
Qed.
Lemma step_C_waits st a st' : step_C cfg st a = Some st' -> p_C st' = CWaitT -> T_exists st = true.
Proof.
  assert (G1 : forall st e, p_C (close_tcp cfg st e) <> CWaitT).
  { intros st0 e. unfold close_tcp. destruct (_ && _); [discriminate|]. cbv zeta. destruct (is_lost _); discriminate. }
  assert (G2 : forall st, p_C (half_close cfg st) <> CWaitT).
  { intros st0. unfold half_close. destruct (c_can_write_eof cfg); [|apply G1]. cbv zeta.
    destruct (is_lost _); [apply G1|discriminate]. }
  assert (G3 : forall st, p_C (after_transfer cfg st) <> CWaitT).
  { intros st0. unfold after_transfer. cbv zeta. destruct (_ && _); [|apply G2].
    destruct (is_lost _); [apply G1|discriminate]. }
  intros H K. unfold step_C in H. destruct (p_C st) eqn:HC; destruct a; try discriminate.
  - destruct (T_exists st); [reflexivity|]. apply some_inj in H as <-. contradiction (G3 _ K).
  - destruct (p_T st) as [| | | | | | |[e|]]; try discriminate; apply some_inj in H as <-;
      [contradiction (G1 _ _ K)|contradiction (G3 _ K)].
  - destruct (is_lost st); [|discriminate]. apply some_inj in H as <-. contradiction (G1 _ _ K).
  - destruct (expired _ _); [|discriminate]. apply some_inj in H as <-.
    destruct (is_lost st); [contradiction (G1 _ _ K)|contradiction (G2 _ K)].
  - destruct (is_lost st); [|discriminate]. apply some_inj in H as <-. contradiction (G1 _ _ K).
  - destruct (expired _ _); [|discriminate]. apply some_inj in H as <-. contradiction (G1 _ _ K).
  - destruct (is_lost st); [|discriminate]. apply some_inj in H as <-. discriminate.
  - destruct (expired _ _); [|discriminate]. destruct (is_lost st); apply some_inj in H as <-; discriminate.
  - destruct (is_lost st); [|discriminate]. apply some_inj in H as <-. discriminate.
  - destruct (expired _ _); [|discriminate]. apply some_inj in H as <-. discriminate.
Qed.

(** The end of the stream *)
Definition Eof st : Prop := p_lost st <> None -> r_eof (p_reader st) = true.
Lemma step_T_reader st a st' : step_T X cfg st a = Some st' -> r_eof (p_reader st') = r_eof (p_reader st).
Proof.
  intros H.
  assert (R : forall st1 e, p_reader (T_raise X cfg st1 e) = p_reader st1).
  { intros st1 e. destruct (T_raise_shape X cfg st1 e) as (? & ? & ? & ? & ? & ? & ->). reflexivity. }
  assert (Rc : forall st1 c, p_reader (after_close X cfg st1 c) = p_reader st1).
  { intros st1 c. destruct (after_close_shape X cfg st1 c) as (? & ? & ? & ? & ? & ? & ->). reflexivity. }
  assert (Rd : forall st1 r, after_drain X cfg st a = Some (st1, r) -> p_reader st1 = p_reader st).
  { intros st1 r D. apply after_drain_shape in D as (? & ? & ? & ? & ? & ->). reflexivity. }
  assert (Rp : forall st1 m, p_reader (put_message X cfg st1 m) = p_reader st1).
  { intros st1 m. unfold put_message. destruct (room cfg st1); [|reflexivity]. cbv zeta. cbn [set_messages p_pop p_pops].
    destruct (p_pop st1); [destruct (set_result _ _); [|rewrite R]|]; reflexivity. }
  unfold step_T in H. destruct (p_T st) as [|c|c|c|c|c|m w|e] eqn:HT; try discriminate; (destruct (p_Tcancel st) eqn:Nc;
    [destruct a; try discriminate; apply some_inj in H as <-; rewrite R; reflexivity|]).
  - destruct a; try discriminate. unfold read_frame in H.
    assert (G : match run (legacy_read X (negb (c_client cfg)) (read_limit cfg c)) (p_reader st) (p_exts st) with
        | OSusp _ _ _ => None
        | OFail e r exts => Some (T_raise X cfg (set_reader r (set_exts exts st)) (PyExn e))
        | ODone f r exts =>
          let st := set_in (p_in st ++ [f]) (set_reader r (set_exts exts st)) in
          Some (on_frame X cfg st c f)
        end = Some st' -> r_eof (p_reader st') = r_eof (p_reader st)).
    { clear H. pose proof (eof_stays (legacy_read X (negb (c_client cfg)) (read_limit cfg c)) (p_reader st) (p_exts st)) as Es.
      destruct (run _ _ _) as [? ? ?|f r ex|e r ex] eqn:Run; cbv zeta; try discriminate; intros H;
        apply some_inj in H as <-.
      - rewrite (proj2 (on_frame_still X cfg _ c f)). exact Es.
      - rewrite R. exact Es. }
    destruct (p_lost st) as [[o|]|] eqn:Lo; [|now apply G|now apply G].
    apply some_inj in H as <-. now rewrite R.
  - destruct (after_drain X cfg st a) as [[st2 r]|] eqn:D; [|discriminate]. specialize (Rd _ _ eq_refl).
    destruct r; apply some_inj in H as <-; rewrite ?R; cbn [set_T p_reader]; now rewrite Rd.
  - destruct a; try discriminate. destruct (ensure_open_end st); [|discriminate]. apply some_inj in H as <-. now rewrite R.
  - destruct (after_drain X cfg st a) as [[st2 r]|] eqn:D; [|discriminate]. specialize (Rd _ _ eq_refl).
    destruct r as [|e|]; [|destruct (is_closed_exn e)|]; apply some_inj in H as <-; rewrite ?R, ?Rc; cbn [set_T p_reader]; now rewrite Rd.
  - destruct a; try discriminate. destruct (ensure_open_end st); [|discriminate]. apply some_inj in H as <-.
    destruct (is_closed_exn p); now rewrite ?R, ?Rc.
  - destruct a; try discriminate. destruct (fut_done _); [|discriminate]. apply some_inj in H as <-. now rewrite Rp.
Qed.

(** The invariant *)
Definition Frs st : Prop :=
  (forall j w m c, nth_error (p_users st) j = Some (USendFrag w m, c) -> done_fut (p_frags st) w \/ p_frag st = Some w) /\
  match p_frag st with
  | None => forall j pc c, nth_error (p_users st) j = Some (pc, c) -> ~ fragmenting pc
  | Some w => pending (p_frags st) w /\ exists i pc c, nth_error (p_users st) i = Some (pc, c) /\ fragmenting pc /\
      forall j pc' c', nth_error (p_users st) j = Some (pc', c') -> fragmenting pc' -> j = i
  end.
Definition Closer st : Prop := exists j pc c, nth_error (p_users st) j = Some (pc, c) /\ closing pc c.
Definition Cls st : Prop := mild st -> p_state st = Closing \/ (exists c, p_T st = TPongEnsure c) ->
  Tend st \/ (exists c, p_T st = TCloseDrain c) \/ Closer st.
Definition Pts st : Prop := forall m w, p_T st = TPut m w ->
  Tend st \/ done_fut (p_puts st) w \/ p_put st = Some w /\ queue_full cfg st.
Definition Oks st : Prop := forall j pc c, nth_error (p_users st) j = Some (pc, c) -> okpc st pc.
Record J st : Prop := {
  J_base : Base st; J_recv : Recv cfg st; J_eof : Eof st;
  J_started : started st; J_ok : Oks st; J_frag : Frs st; J_cls : Cls st; J_put : Pts st;
  J_T : forall c, p_T st <> TCloseEnsure c }.

Lemma okpc_mono st st' pc : (T_exists st = true -> T_exists st' = true) -> (p_C st <> CNone -> p_C st' <> CNone) ->
  okpc st pc -> okpc st' pc.
Proof. intros A B. destruct pc; cbn [okpc]; auto. intros [C D]; auto. Qed.
Lemma Frs_same st st' : p_users st' = p_users st -> samefrag st st' -> Frs st -> Frs st'.
Proof. intros A [B C]. unfold Frs. now rewrite A, B, C. Qed.
Lemma T_same st st' : p_T st' = p_T st -> T_exists st' = T_exists st /\ T_done st' = T_done st.
Proof. unfold T_exists, T_done. now intros ->. Qed.

(* everything but Base, Recv and Eof *)
Definition J' st : Prop :=
  started st /\ Oks st /\ Frs st /\ Cls st /\ Pts st /\ forall c, p_T st <> TCloseEnsure c.
Lemma quiet_J' st st' : (p_C st' = CWaitT -> p_C st = CWaitT \/ T_exists st = true) ->
  quiet st st' -> samefrag st st' -> sameput st st' -> J' st -> J' st'.
Proof.
  intros HC Q F P (A1 & A2 & A3 & A4 & A5 & A6). pose proof (quiet_Tend _ _ Q) as M.
  destruct Q as (B1 & B2 & B3 & B4 & B5 & B6). destruct (T_same _ _ B2) as [E1 E2].
  destruct A1 as (S1 & S2 & S3). split; [|split; [|split; [|split; [|split]]]].
  - split; [|split]; rewrite E1.
    + intros K. apply S1. destruct B6 as [B6|(B6 & _)]; [now rewrite B6 in K|now left].
    + auto.
    + intros K. destruct (HC K) as [K'|K']; auto.
  - intros j pc c K. rewrite B1 in K. apply (okpc_mono st); [now rewrite E1|exact B4|eauto].
  - eapply Frs_same; eauto.
  - intros Mi K. unfold mild in *. rewrite B3 in Mi.
    destruct B6 as [B6|(B6 & B7 & B8)]; [|now left]. rewrite B6 in K.
    assert (K' : p_state st = Closing \/ (exists c, p_T st = TPongEnsure c)) by (rewrite B2 in K; exact K).
    destruct (A4 Mi K') as [D|[D|D]]; [auto|right; left; now rewrite B2|right; right]. unfold Closer. now rewrite B1.
  - intros m w K. rewrite B2 in K. destruct P as (P1 & P2 & P3). rewrite P1, P2. unfold queue_full. rewrite P3.
    destruct (A5 m w K) as [D|D]; auto.
  - now rewrite B2.
Qed.
Lemma nth_replace {A} i (x : A) l j y : nth_error (replace i x l) j = Some y ->
  (i < length l)%nat -> j = i /\ y = x \/ j <> i /\ nth_error l j = Some y.
Proof.
  intros H L. destruct (Nat.eq_dec i j) as [<-|N].
  - rewrite nth_error_replace_eq in H by exact L. left. split; congruence.
  - rewrite nth_error_replace_neq in H by exact N. right. split; congruence.
Qed.
Lemma umove_J' st i pc c st' pc' : nth_error (p_users st) i = Some (pc, c) -> umove i pc c st st' pc' -> 
  (p_C st' = CWaitT -> p_C st = CWaitT \/ T_exists st = true) -> J' st -> J' st'.
Proof.
  intros Hi (B1 & B2 & B3 & B4 & B5 & B6 & B7 & (Fa & Fb & Fc) & (Pa & Pb) & B8) HC (A1 & A2 & A3 & A4 & A5 & A6).
  assert (Li : (i < length (p_users st))%nat) by (apply nth_error_Some; congruence).
  destruct (T_same _ _ B2) as [E1 E2].
  assert (M : Tend st -> Tend st') by (apply Tend_mono; auto).
  destruct A1 as (S1 & S2 & S3). split; [|split; [|split; [|split; [|split]]]].
  - split; [|split]; rewrite E1.
    + intros K. apply S1. destruct B6 as [B6|(B6 & _)]; [now rewrite B6 in K|now left].
    + auto.
    + intros K. destruct (HC K) as [K'|K']; auto.
  - intros j pc0 c0 K. rewrite B1 in K. apply nth_replace in K as [[-> K]|[N K]]; [|apply (okpc_mono st); [now rewrite E1|exact B4|eauto]|exact Li].
    injection K as -> ->. exact B7.
  - destruct A3 as [F1 F2]. split.
    + intros j w m c0 K. rewrite B1 in K. apply nth_replace in K as [[-> K]|[N K]]; [| |exact Li].
      * right. apply (Fb w m). congruence.
      * destruct (F1 j w m c0 K) as [D|D]; [left; auto|].
        destruct Fc as [[[G1 G2] _]|[[G1 _]|(G1 & G2 & G3)]]; [right; congruence|congruence|].
        left. apply G3, D.
    + destruct Fc as [[[G1 G2] G3]|[[G1 [(w & G2 & G3) G4]]|(G1 & G2 & G3)]].
      * rewrite G1. destruct (p_frag st) as [w|].
        { destruct F2 as (F3 & k & pck & ck & F4 & F5 & F6). rewrite G2. split; [exact F3|].
          destruct (Nat.eq_dec k i) as [->|N].
          - assert (pck = pc) as -> by congruence. exists i, pc', false.
            split; [rewrite B1; now apply nth_error_replace_eq|]. split; [now apply G3|].
            intros j pc0 c0 K Fr. rewrite B1 in K. apply nth_replace in K as [[-> K]|[N K]]; [reflexivity|eauto|exact Li].
          - exists k, pck, ck. split; [rewrite B1; rewrite nth_error_replace_neq by congruence; exact F4|]. split; [exact F5|].
            intros j pc0 c0 K Fr. rewrite B1 in K. apply nth_replace in K as [[-> K]|[N' K]]; [|eauto|exact Li].
            injection K as -> ->. apply (F6 i pc c Hi). now apply G3. }
        { intros j pc0 c0 K Fr. rewrite B1 in K. apply nth_replace in K as [[-> K]|[N K]]; [|exact (F2 _ _ _ K Fr)|exact Li].
          injection K as -> ->. apply (F2 i pc c Hi). now apply G3. }
      * rewrite G2. split; [exact G3|]. exists i, pc', false. split; [rewrite B1; now apply nth_error_replace_eq|].
        split; [exact G4|]. intros j pc0 c0 K Fr. rewrite B1 in K. apply nth_replace in K as [[-> K]|[N K]]; [reflexivity| |exact Li].
        rewrite G1 in F2. contradiction (F2 _ _ _ K Fr).
      * rewrite G1. intros j pc0 c0 K Fr. rewrite B1 in K. apply nth_replace in K as [[-> K]|[N K]]; [|  |exact Li].
        { injection K as -> ->. contradiction. }
        destruct (p_frag st) as [w|]; [|exact (F2 _ _ _ K Fr)].
        destruct (G3 w eq_refl) as [_ G4]. destruct F2 as (F3 & k & pck & ck & F4 & F5 & F6).
        apply N. rewrite (F6 _ _ _ K Fr). symmetry. exact (F6 _ _ _ Hi G4).
  - intros Mi K. unfold mild in *. rewrite B3 in Mi.
    assert (Cm : closing pc' false -> Closer st').
    { intros D. exists i, pc', false. split; [rewrite B1; now apply nth_error_replace_eq|exact D]. }
    destruct B6 as [B6|(B6 & B7' & [B8'|(d & t & ->)])]; [|now left|right; right; apply Cm; reflexivity].
    rewrite B6, B2 in K. destruct (A4 Mi K) as [D|[D|(j & pcj & cj & D1 & D2)]]; [auto|right; left; now rewrite B2|].
    destruct (Nat.eq_dec j i) as [->|N].
    + assert (pcj = pc) as -> by congruence. assert (cj = c) as -> by congruence.
      destruct (B8 D2) as [D3|D3]; [right; right; auto|left]. apply D3; [exact Mi|].
      destruct K as [K|[c0 K]]; [apply S1; now right|]. unfold T_exists. now rewrite K.
    + right; right. exists j, pcj, cj. split; [rewrite B1, nth_error_replace_neq by congruence; exact D1|exact D2].
  - intros m w K. rewrite B2 in K. destruct (A5 m w K) as [D|[D|[D1 D2]]]; [auto|right; left; auto|].
    destruct Pb as [(P1 & P2 & P3)|P1]; [right; right|right; left; auto]. rewrite P1. unfold queue_full. rewrite P3. auto.
  - now rewrite B2.
Qed.

Lemma tmove_J' st a st' : step_T X cfg st a = Some st' -> Lost st -> J' st -> J' st'.
Proof.
  intros H L (A1 & A2 & A3 & A4 & A5 & A6). pose proof (step_T_ends _ _ _ _ _ H) as (Te & Te' & _ & Nd).
  apply step_T_move in H as (B1 & B2 & B3 & B4 & B5 & B6 & B7 & B8); auto.
  assert (Cn : p_C st' <> CNone) by (apply B4; apply A1; exact Te).
  split; [|split; [|split; [|split; [|split]]]].
  - split; [auto|]. split; auto.
  - intros j pc c K. rewrite B1 in K. apply (okpc_mono st); eauto.
  - eapply Frs_same; eauto.
  - intros Mi K. unfold mild in *. rewrite B3 in Mi. destruct B8 as [B8|[B8|(B8 & B9 & B10 & B11)]]; [left; now left|auto|].
    assert (K' : p_state st = Closing) by (destruct K as [K|[c K]]; [congruence|exact (B11 c K)]).
    destruct (A4 Mi (or_introl K')) as [[D|[_ D]]|[[c D]|D]]; [congruence|congruence|contradiction (B10 c)|].
    right. right. unfold Closer. now rewrite B1.
  - intros m w K. destruct (B7 m w K) as (D1 & D2 & D3). auto.
  - exact B6.
Qed.
Lemma close_payload code reason data : (forall x, utf8_encode reason = Ok x -> lenN x <= 123) ->
  serialize_close code reason = Ok data -> lenN data <= 125.
Proof.
  intros S0 H. unfold serialize_close in H. destruct (check_close code); [|discriminate]. cbn [rbind] in H.
  destruct (utf8_encode reason) as [x|]; [|discriminate]. cbn [rbind] in H. apply ok_inj in H as <-.
  specialize (S0 x eq_refl). unfold lenN in *. rewrite app_length.
  replace (length (be_bytes 2 (Z.to_N code))) with 2%nat by reflexivity. lia.
Qed.
Lemma J'_step st l st' : J st -> ~ overlaps st l -> ~ abandons st l -> short_reason l ->
  step X cfg st l = Some st' -> J' st'.
Proof.
  intros [B R Ef S0 Ok0 Fr Cl Pt Nt] Ho Ha Hs H. pose proof (proj1 (proj2 B)) as L. destruct R as ((W1 & W2) & _).
  assert (I : J' st) by (split; [exact S0|split; [exact Ok0|split; [exact Fr|split; [exact Cl|split; assumption]]]]).
  pose proof (started_opened _ S0) as O.
  assert (Same : forall st1, quiet st st1 -> samefrag st st1 -> sameput st st1 -> p_C st1 = p_C st -> J' st1).
  { intros st1 Q F P HC. apply (quiet_J' st); auto. rewrite HC. auto. }
  assert (Ck : forall st1, ck st st1 -> p_C st1 = CWaitT -> p_C st = CWaitT \/ T_exists st = true).
  { intros st1 (_ & _ & [K|[_ K]] & _) HC; [left; congruence|congruence]. }
  destruct l; cbn [step] in H.
  - destruct (p_state st) eqn:Es; try discriminate. destruct (p_C st) eqn:Ec; try discriminate.
    apply some_inj in H as <-. unfold connection_open.
    split; [|split; [|split; [|split; [|split]]]].
    + split; [reflexivity|]. split; [discriminate|]. discriminate.
    + intros j pc c K. apply (okpc_mono st); [reflexivity|discriminate|]. eapply Ok0, K.
    + eapply Frs_same; [| |exact Fr]; [reflexivity|split; reflexivity].
    + intros Mi [K|[c K]]; discriminate.
    + discriminate.
    + discriminate.
  - destruct (fail_connection _ _ _ _) as [st2 e2] eqn:F. apply some_inj in H as <-. cbn [fst].
    destruct (fail_quiet _ _ _ _ O F) as (Q1 & Q2 & Q3 & _). apply (quiet_J' st); auto.
    apply Ck. eapply fail_ck, F.
  - destruct (r_eof _); [discriminate|]. apply some_inj in H as <-.
    apply Same; [unfold quiet; cbn; auto 10|split; reflexivity|repeat split|reflexivity].
  - destruct (r_eof _); [discriminate|]. apply some_inj in H as <-.
    apply Same; [unfold quiet; cbn; auto 10|split; reflexivity|repeat split|reflexivity].
  - assert (NL : p_lost st = None).
    { destruct (p_lost st) eqn:K; [|reflexivity]. assert (p_state st = Closed) as Q by (apply L; congruence).
      rewrite Q in H. discriminate. }
    assert (H' : connection_lost st o closing0 = st') by (destruct (p_state st); congruence). clear H. subst st'.
    destruct (connection_lost_shape st o closing0) as (r & lo & po & k & bb & Q). rewrite Q. clear Q.
    destruct S0 as (S1 & S2 & S3).
    split; [|split; [|split; [|split; [|split]]]].
    + split; [|split; [exact S2|exact S3]]. intros [K|K]; discriminate.
    + intros j pc c K. exact (Ok0 j pc c K).
    + exact Fr.
    + intros Mi [K|K]; [discriminate|]. apply Cl; [unfold mild; now rewrite NL|]. now right.
    + exact Pt.
    + exact Nt.
  - apply some_inj in H as <-.
    apply Same; [unfold quiet; cbn; auto 10|split; reflexivity|repeat split|reflexivity].
  - apply some_inj in H as <-.
    apply Same; [unfold quiet; cbn; auto 10|split; reflexivity|repeat split|reflexivity].
  - apply some_inj in H as <-.
    assert (N : forall j x, nth_error (p_users st ++ [(UStart c, false)]) j = Some x ->
              nth_error (p_users st) j = Some x \/ x = (UStart c, false)).
    { intros j x Q. destruct (Nat.lt_ge_cases j (length (p_users st))) as [Lj|G].
      - left. now rewrite nth_error_app1 in Q by exact Lj.
      - right. rewrite nth_error_app2 in Q by exact G.
        destruct (j - length (p_users st))%nat as [|[]]; cbn in Q; congruence. }
    assert (N' : forall j x, nth_error (p_users st) j = Some x -> nth_error (p_users st ++ [(UStart c, false)]) j = Some x).
    { intros j x Q. rewrite nth_error_app1; [exact Q|]. apply nth_error_Some. congruence. }
    destruct S0 as (S1 & S2 & S3). split; [|split; [|split; [|split; [|split]]]].
    + split; [exact S1|]. split; [exact S2|exact S3].
    + intros j pc c0 K. cbn [set_users p_users] in K. apply N in K as [K|K]; [exact (Ok0 j pc c0 K)|].
      injection K as -> ->. destruct c; try exact Logic.I. cbn [okpc]. intros data. apply close_payload.
      intros x. apply (Hs code reason x eq_refl).
    + destruct Fr as [F1 F2]. split; cbn [set_users p_users p_frag p_frags].
      * intros j w m c0 K. apply N in K as [K|K]; [exact (F1 _ _ _ _ K)|discriminate].
      * destruct (p_frag st) as [w|].
        { destruct F2 as (F3 & k & pck & ck & F4 & F5 & F6). split; [exact F3|]. exists k, pck, ck.
          split; [now apply N'|]. split; [exact F5|]. intros j pc0 c0 K D. apply N in K as [K|K]; [exact (F6 _ _ _ K D)|].
          injection K as -> ->. destruct D. }
        { intros j pc0 c0 K D. apply N in K as [K|K]; [exact (F2 _ _ _ K D)|]. injection K as -> ->. destruct D. }
    + intros Mi K. destruct (Cl Mi K) as [D|[D|(j & pc & c0 & D1 & D2)]]; [now left|right; now left|right; right].
      exists j, pc, c0. split; [now apply N'|exact D2].
    + exact Pt.
    + exact Nt.
  - destruct (nth_error (p_users st) i) as [[pc c]|] eqn:Hi; [|discriminate].
    assert (H' : set_users (replace i (pc, true) (p_users st)) st = st') by (destruct pc; congruence).
    clear H. subst st'.
    assert (Li : (i < length (p_users st))%nat) by (apply nth_error_Some; congruence).
    assert (N : forall j pc0 c0, nth_error (replace i (pc, true) (p_users st)) j = Some (pc0, c0) ->
              exists c1, nth_error (p_users st) j = Some (pc0, c1)).
    { intros j pc0 c0 Q. apply nth_replace in Q as [[-> Q]|[_ Q]]; [|eauto|exact Li].
      injection Q as -> ->. eauto. }
    destruct S0 as (S1 & S2 & S3). split; [|split; [|split; [|split; [|split]]]].
    + split; [exact S1|]. split; [exact S2|exact S3].
    + intros j pc0 c0 K. apply N in K as [c1 K]. exact (Ok0 j pc0 c1 K).
    + destruct Fr as [F1 F2]. split; cbn [set_users p_users p_frag p_frags].
      * intros j w m c0 K. apply N in K as [c1 K]. exact (F1 _ _ _ _ K).
      * destruct (p_frag st) as [w|].
        { destruct F2 as (F3 & k & pck & ck & F4 & F5 & F6). split; [exact F3|].
          assert (X1 : exists ck', nth_error (replace i (pc, true) (p_users st)) k = Some (pck, ck')).
          { destruct (Nat.eq_dec i k) as [<-|Nk].
            - exists true. rewrite nth_error_replace_eq by exact Li. congruence.
            - exists ck. now rewrite nth_error_replace_neq by exact Nk. }
          destruct X1 as [ck' X1]. exists k, pck, ck'. split; [exact X1|]. split; [exact F5|].
          intros j pc0 c0 K D. apply N in K as [c1 K]. exact (F6 _ _ _ K D). }
        { intros j pc0 c0 K D. apply N in K as [c1 K]. exact (F2 _ _ _ K D). }
    + intros Mi K. destruct (Cl Mi K) as [D|[D|(j & pc0 & c0 & D1 & D2)]]; [now left|right; now left|right; right].
      destruct (Nat.eq_dec i j) as [<-|Nk].
      * exists i, pc, true. cbn [set_users p_users]. split; [now rewrite nth_error_replace_eq by exact Li|].
        assert (pc0 = pc) as -> by congruence. destruct pc; cbn [closing] in *; try contradiction; [|exact D2].
        contradiction Ha. exists i, d, t0, c. split; [reflexivity|exact Hi].
      * exists j, pc0, c0. cbn [set_users p_users]. split; [now rewrite nth_error_replace_neq by exact Nk|exact D2].
    + exact Pt.
    + exact Nt.
  - now apply (tmove_J' st a).
  - destruct (step_K_quiet _ _ _ S0 L H) as (Q & F & P). apply (quiet_J' st); auto.
    apply Ck. eapply step_K_ck, H.
  - pose proof (step_C_not_none cfg _ _ _ H) as Cn. pose proof (step_C_waits _ _ _ H) as Cw.
    apply step_C_shape in H as (c & b & w & k & ab & ->).
    apply (quiet_J' st); auto; [unfold quiet; cbn in *; auto 10|split; reflexivity|repeat split].
  - pose proof (step_user_ck _ _ _ _ _ _ H) as C. unfold step_user in H.
    destruct (nth_error (p_users st) i) as [[pc c]|] eqn:Hi; [|discriminate].
    assert (F1 : Frag1 st pc).
    { intros D. destruct Fr as [_ F2]. destruct (p_frag st) as [w|]; [exists w; tauto|]. contradiction (F2 _ _ _ Hi D). }
    assert (G : exists pc', umove i pc c st st' pc').
    { destruct c.
      - assert (D : forall r, pc <> UDone r) by (intros r ->; discriminate).
        assert (H' : match a with Go => Some (cancel_call X cfg st i pc) | _ => None end = Some st')
          by (destruct pc; try exact H; discriminate).
        destruct a; try discriminate. apply some_inj in H' as <-.
        apply um_cancel_call; auto. eapply Ok0, Hi.
      - assert (H' : step_call X cfg st i pc a = Some st') by (destruct pc; try exact H; discriminate).
        apply (um_step_call i st pc a st'); auto; [eapply Ok0, Hi|].
        intros -> d ->. destruct (p_frag st) eqn:Hf; [|reflexivity]. contradiction Ho. exists i, d, false.
        split; [reflexivity|]. split; [exact Hi|congruence]. }
    destruct G as [pc' G]. apply (umove_J' st i pc c st' pc'); auto. now apply Ck.
Qed.
Lemma Eof_step st l st' : J st -> step X cfg st l = Some st' -> Eof st'.
Proof.
  intros [B R Ef S0 Ok0 Fr Cl Pt Nt] H. pose proof (proj1 (proj2 B)) as L.
  assert (Same : p_lost st' = p_lost st -> r_eof (p_reader st') = r_eof (p_reader st) -> Eof st').
  { intros A1 A2 K. rewrite A2. apply Ef. congruence. }
  destruct l; cbn [step] in H.
  - destruct (p_state st); try discriminate. destruct (p_C st); try discriminate.
    apply some_inj in H as <-. now apply Same.
  - destruct (fail_connection _ _ _ _) as [st2 e2] eqn:F. apply fail_shape in F as (? & ? & ? & ? & ? & ->).
    apply some_inj in H as <-. now apply Same.
  - destruct (r_eof (p_reader st)) eqn:K; [discriminate|]. apply some_inj in H as <-.
    intros D. unfold Eof in Ef. rewrite K in Ef. discriminate (Ef D).
  - destruct (r_eof (p_reader st)) eqn:K; [discriminate|]. apply some_inj in H as <-. intros _. reflexivity.
  - assert (NL : p_lost st = None).
    { destruct (p_lost st) eqn:K; [|reflexivity]. assert (p_state st = Closed) as Q by (apply L; congruence).
      rewrite Q in H. discriminate. }
    assert (H' : connection_lost st o closing0 = st') by (destruct (p_state st); congruence). clear H. subst st'.
    unfold connection_lost in *. cbv zeta in *.
    destruct (abort_futs _ _ _) as [futs ok]. destruct ok; [intros _; reflexivity|].
    intros K. contradiction K. cbn. destruct (p_close _); exact NL.
  - apply some_inj in H as <-. now apply Same.
  - apply some_inj in H as <-. now apply Same.
  - apply some_inj in H as <-. now apply Same.
  - destruct (nth_error _ _) as [[pc c]|]; [|discriminate].
    assert (H' : set_users (replace i (pc, true) (p_users st)) st = st') by (destruct pc; congruence).
    subst st'. now apply Same.
  - apply Same; [|eapply step_T_reader, H].
    apply step_T_move in H; auto. apply H.
  - apply step_K_shape in H as (? & ? & ? & ? & ? & ? & ? & ? & ->). now apply Same.
  - apply step_C_shape in H as (? & ? & ? & ? & ? & ->). now apply Same.
  - apply step_user_still in H as (_ & _ & _ & A & A' & _). apply Same; [exact A|now rewrite A'].
Qed.

Lemma J_step st l st' : J st -> ~ overlaps st l -> ~ abandons st l -> short_reason l ->
  step X cfg st l = Some st' -> J st'.
Proof.
  intros I Ho Ha Hs H. destruct (J'_step _ _ _ I Ho Ha Hs H) as (A1 & A2 & A3 & A4 & A5 & A6).
  pose proof (Eof_step _ _ _ I H) as Ef. destruct I as [B R _ _ _ _ _ _ _].
  constructor; auto; [eapply Base_step; eauto|eapply Recv_step; eauto].
Qed.
Lemma J_initial exts : J (initial exts).
Proof.
  destruct (Recv_exec X cfg exts [] (initial exts) eq_refl) as [B R].
  assert (N : forall j (x : upc * bool), nth_error [] j = Some x -> False) by (intros [|j] x; discriminate).
  constructor; auto; try discriminate.
  - intros K. contradiction K. reflexivity.
  - split; [intros [K|K]; discriminate|]. split; discriminate.
  - intros j pc c K. destruct (N _ _ K).
  - split; [intros j w m c K; destruct (N _ _ K)|]. intros j pc c K. destruct (N _ _ K).
  - intros _ [K|[c K]]; discriminate.
Qed.
Lemma J_exec exts ls st :
  (forall before l after st1, ls = before ++ l :: after -> exec X cfg (initial exts) before = Some st1 ->
     ~ overlaps st1 l /\ ~ abandons st1 l) ->
  Forall short_reason ls -> exec X cfg (initial exts) ls = Some st -> J st.
Proof.
  revert st. induction ls as [|l ls IH] using rev_ind; intros st Ho Hs H.
  - cbn in H. apply some_inj in H as <-. apply J_initial.
  - rewrite exec_app in H. destruct (exec X cfg (initial exts) ls) as [st1|] eqn:H1; [|discriminate].
    cbn [exec] in H. destruct (step X cfg st1 l) as [st2|] eqn:H2; [|discriminate].
    apply some_inj in H as <-. destruct (Ho ls l [] st1 eq_refl H1) as [A1 A2].
    apply Forall_app in Hs as [Hs1 Hs2].
    apply (J_step st1 l); [apply IH; [|exact Hs1|reflexivity]|exact A1|exact A2|now inversion Hs2|exact H2].
    intros before l' after st' -> Hb. apply (Ho before l' (after ++ [l]) st'); [|exact Hb].
    now rewrite <- app_assoc.
Qed.

(** Nothing is left to do *)
Fixpoint no_yield {S A} (g : gen S A) : Prop :=
  match g with
  | GRet _ | GRaise _ => True
  | GReadLine _ k => forall r, no_yield (k r)
  | GReadExact _ k => forall r, no_yield (k r)
  | GReadToEof k => forall r, no_yield (k r)
  | GAtEof k => forall r, no_yield (k r)
  | GGet k => forall x, no_yield (k x)
  | GPut _ k => no_yield k
  | GYield _ => False
  end.
Lemma run_eof {S A} (g : gen S A) : forall r x g' r' x', no_yield g -> r_eof r = true -> run g r x <> OSusp g' r' x'.
Proof.
  induction g as [a|e|p k IH|n k IH|k IH|k IH|k IH|y k IH|k IH]; intros r x g' r' x' P Er;
    cbn [no_yield run] in *; try discriminate; try contradiction; auto.
  - destruct (find_lf_from p (r_buffer r)); [apply IH; auto|]. rewrite Er. apply IH; auto.
  - destruct (n <? 0)%Z; [apply IH; auto|]. destruct (lenZ (r_buffer r) <? n)%Z; [|apply IH; auto].
    rewrite Er. apply IH; auto.
  - rewrite Er. apply IH; auto.
  - destruct (r_buffer r); [rewrite Er|]; apply IH; auto.
Qed.
Lemma no_yield_bind {S A B} (g : gen S A) (f : A -> gen S B) :
  no_yield g -> (forall a, no_yield (f a)) -> no_yield (gbind g f).
Proof. intros H K. induction g; cbn [no_yield gbind] in *; auto. Qed.
Lemma no_yield_lift {S A} (r : result A) : no_yield (@glift S A r).
Proof. destruct r; exact Logic.I. Qed.
Lemma no_yield_exact {S} n : no_yield (@read_exact S n).
Proof. cbn. intros. apply no_yield_lift. Qed.
Lemma no_yield_read mask max : no_yield (legacy_read X mask max).
Proof.
  unfold legacy_read. apply no_yield_bind.
  - unfold legacy_read_wire. apply no_yield_bind; [apply no_yield_exact|].
    intros [|x1 [|x2 [|]]]; try exact Logic.I. cbv zeta.
    destruct (opcode_of_N _); [|exact Logic.I]. destruct (negb _); [exact Logic.I|].
    apply no_yield_bind.
    { destruct (_ =? 126)%N; [|destruct (_ =? 127)%N]; try exact Logic.I;
      (apply no_yield_bind; [apply no_yield_exact|intros; exact Logic.I]). }
    intros n. apply no_yield_bind.
    { destruct max as [m|]; [|exact Logic.I]. destruct (m <? Z.of_N n)%Z; exact Logic.I. }
    intros _. apply no_yield_bind.
    { destruct mask; [apply no_yield_exact|exact Logic.I]. }
    intros k. apply no_yield_bind; [apply no_yield_exact|].
    intros d. apply no_yield_bind; [|intros; exact Logic.I].
    destruct mask; [apply no_yield_lift|exact Logic.I].
  - intros f. apply no_yield_bind; [cbn; intros; exact Logic.I|]. intros exts.
    destruct (decode_reversed X exts f max) as [exts' r]. apply no_yield_bind; [exact Logic.I|]. intros _.
    apply no_yield_bind; [apply no_yield_lift|]. intros f'. apply no_yield_bind; [apply no_yield_lift|]. intros; exact Logic.I.
Qed.

Lemma stuck_done st : J st -> ordinary_loss st -> stuck X cfg st ->
  queue_full cfg st \/ forall i, (i < length (p_users st))%nat -> call_done st i.
Proof.
  intros [B R Ef S0 Ok0 Fr Cl Pt Nt] OL SK.
  assert (Lo : p_lost st <> None) by (destruct OL as [K|K]; rewrite K; discriminate).
  assert (Ml : mild st) by (unfold mild; destruct OL as [K|K]; rewrite K; exact Logic.I).
  assert (Il : is_lost st = true) by (unfold is_lost; destruct (p_lost st); congruence).
  assert (Sc : p_state st = Closed) by (apply (proj1 (proj2 B)), Lo).
  (* what can't happen now *)
  assert (SK0 : forall l, progress l -> step X cfg st l = None).
  { intros l Hl. specialize (SK 0 l Hl). rewrite N.add_0_r in SK.
    replace (set_now (p_now st) st) with st in SK by (now destruct st). exact SK. }
  (* transfer_data *)
  assert (NC : ~ Closer st).
  { intros (j & pc & c & D1 & D2). pose proof (Ok0 _ _ _ D1) as K.
    destruct c.
    - specialize (SK0 (LUser j Go) Logic.I). cbn [step] in SK0. unfold step_user in SK0. rewrite D1 in SK0.
      destruct pc; cbn [closing] in D2; try contradiction; discriminate.
    - destruct pc as [cl|w|w m| | |op src| | |o|data|d t0|d t0|d t0|t0|t0| |r]; cbn [closing] in D2; try contradiction; cbn [okpc] in K;
        (destruct d as [d|]; [|try (contradiction (K eq_refl)); destruct K as [_ K]; contradiction (K eq_refl)]);
        specialize (SK d (LUser j Timeout) Logic.I); cbn [step] in SK; unfold step_user in SK;
        cbn [set_now p_users] in SK; rewrite D1 in SK; cbn [step_call expired set_now p_now] in SK;
        (replace (d <=? p_now st + d) with true in SK by (symmetry; apply N.leb_le; lia)); discriminate. }
  assert (NT : Tend st -> T_done st = true).
  { intros [D|[D1 D2]]; [exact D|]. specialize (SK0 (LT Go) Logic.I). cbn [step] in SK0. unfold step_T in SK0. rewrite D2 in SK0.
    unfold T_exists, T_done in *. destruct (p_T st); try discriminate; reflexivity. }
  assert (HT : p_T st = TNone \/ (exists e, p_T st = TDone e) \/ queue_full cfg st).
  { destruct (p_T st) as [|c|c|c|c|c|m w|e] eqn:HT; auto; [| | | | | |right; left; eauto].
    - exfalso. assert (D : T_done st = false) by (unfold T_done; now rewrite HT).
      pose proof (SK0 (LT Go) Logic.I) as K. cbn [step] in K. unfold step_T in K. rewrite HT in K.
      destruct (p_Tcancel st); [discriminate|]. unfold read_frame in K.
      destruct OL as [E0|E0]; rewrite E0 in K; [|discriminate].
      pose proof (run_eof (legacy_read X (negb (c_client cfg)) (read_limit cfg c)) (p_reader st) (p_exts st)) as N.
      destruct (run _ _ _) as [g' r' x'|f r' x'|e r' x']; try discriminate.
      exact (N g' r' x' (no_yield_read _ _) (Ef Lo) eq_refl).
    - exfalso. destruct (p_Tcancel st) eqn:Tc.
      + pose proof (SK0 (LT Go) Logic.I) as K. cbn [step] in K. unfold step_T in K. rewrite HT, Tc in K. discriminate.
      + pose proof (SK0 (LT DrainOk) Logic.I) as K. cbn [step] in K. unfold step_T in K. rewrite HT, Tc in K. discriminate.
    - exfalso. destruct (Cl Ml (or_intror (ex_intro _ c HT))) as [D|[[c' D]|D]]; [|congruence|contradiction].
      apply NT in D. unfold T_done in D. rewrite HT in D. discriminate.
    - exfalso. destruct (p_Tcancel st) eqn:Tc.
      + pose proof (SK0 (LT Go) Logic.I) as K. cbn [step] in K. unfold step_T in K. rewrite HT, Tc in K. discriminate.
      + pose proof (SK0 (LT DrainOk) Logic.I) as K. cbn [step] in K. unfold step_T in K. rewrite HT, Tc in K. discriminate.
    - exfalso. exact (Nt c eq_refl).
    - right. right. destruct (Pt m w HT) as [D|[D|[_ D]]]; [| |exact D]; exfalso.
      + apply NT in D. unfold T_done in D. rewrite HT in D. discriminate.
      + pose proof (SK0 (LT Go) Logic.I) as K. cbn [step] in K. unfold step_T in K. rewrite HT in K.
        destruct (p_Tcancel st); [discriminate|]. unfold done_fut in D. rewrite D in K. discriminate. }
  assert (HT' : queue_full cfg st \/ (T_exists st = true -> T_done st = true)).
  { unfold T_exists, T_done. destruct HT as [->|[[e ->]|HT]]; [right; discriminate|now right|now left]. }
  destruct HT' as [HT'|Td]; [now left|]. right. clear HT. intros i Li.
  (* close_connection *)
  assert (HC : p_C st = CNone \/ exists e, p_C st = CDone e).
  { destruct (p_C st) as [| | |d|d|d e|d e|e] eqn:HC; [now left| | | | | | |right; eauto]; exfalso;
    (pose proof (SK0 (LC Go) Logic.I) as K; cbn [step] in K; unfold step_C in K; rewrite HC in K;
     try (rewrite Il in K; discriminate); try discriminate).
    destruct S0 as (_ & _ & S3). specialize (Td (S3 HC)). unfold T_done in Td.
    destruct (p_T st) as [| | | | | | |[e|]]; try discriminate. }
  assert (HE : p_C st <> CNone -> exists e, ensure_open_end st = Some e).
  { unfold ensure_open_end. destruct HC as [->|[e ->]]; [congruence|]. destruct e; eauto. }
  assert (Stu : forall j pc a st', nth_error (p_users st) j = Some (pc, false) ->
    (forall r, pc <> UDone r) -> step_call X cfg st j pc a = Some st' -> False).
  { intros j pc a st' Hj D K. specialize (SK0 (LUser j a) Logic.I). cbn [step] in SK0. unfold step_user in SK0. rewrite Hj in SK0.
    destruct pc; congruence. }
  assert (Stc : forall j pc, nth_error (p_users st) j = Some (pc, true) -> (forall r, pc <> UDone r) -> False).
  { intros j pc Hj D. specialize (SK0 (LUser j Go) Logic.I). cbn [step] in SK0. unfold step_user in SK0. rewrite Hj in SK0.
    destruct pc; try discriminate. exact (D r eq_refl). }
  assert (Fg : forall j pc c, nth_error (p_users st) j = Some (pc, c) -> fragmenting pc -> False).
  { intros j pc c Hj D. pose proof (Ok0 _ _ _ Hj) as K.
    destruct c; [apply (Stc j pc Hj); intros r ->; exact D|].
    destruct pc as [cl|w|w m| | |op src| | |[op|]|data|d t0|d t0|d t0|t0|t0| |r]; try contradiction.
    - eapply (Stu j _ DrainOk); [exact Hj|discriminate|reflexivity].
    - eapply (Stu j _ DrainOk); [exact Hj|discriminate|reflexivity].
    - eapply (Stu j _ (Next Stop)); [exact Hj|discriminate|reflexivity]. }
  destruct (nth_error (p_users st) i) as [[pc c]|] eqn:Hi; [|apply nth_error_None in Hi; lia].
  unfold call_done. rewrite Hi.
  assert (De : (exists r, pc = UDone r) \/ forall r, pc <> UDone r) by (destruct pc; eauto; right; discriminate).
  destruct De as [[r ->]|De]; [eauto|]. exfalso.
  destruct c; [exact (Stc _ _ Hi De)|]. pose proof (Ok0 _ _ _ Hi) as K.
  destruct pc as [cl|w|w m| | |op src| | |[op|]|data|d t0|d t0|d t0|t0|t0| |r]; cbn [okpc] in K.
  - destruct cl as [|m|code reason|data|data|].
    + eapply (Stu i _ Go); [exact Hi|discriminate|reflexivity].
    + eapply (Stu i _ Go); [exact Hi|discriminate|reflexivity].
    + eapply (Stu i _ Go); [exact Hi|discriminate|reflexivity].
    + eapply (Stu i _ (GoRand [])); [exact Hi|discriminate|].
      cbn [step_call start_call]. unfold ensure_open. rewrite Sc. reflexivity.
    + eapply (Stu i _ Go); [exact Hi|discriminate|reflexivity].
    + eapply (Stu i _ Go); [exact Hi|discriminate|reflexivity].
  - eapply (Stu i _ Go); [exact Hi|discriminate|]. cbn [step_call]. rewrite (Td K), orb_true_r. reflexivity.
  - destruct Fr as [F1 F2]. destruct (F1 _ _ _ _ Hi) as [D|D].
    + eapply (Stu i _ Go); [exact Hi|discriminate|]. cbn [step_call]. unfold done_fut in D. rewrite D. reflexivity.
    + rewrite D in F2. destruct F2 as (_ & j & pcj & cj & D1 & D2 & _). exact (Fg _ _ _ D1 D2).
  - destruct (HE K) as [e He]. eapply (Stu i _ Go); [exact Hi|discriminate|]. cbn [step_call]. rewrite He. reflexivity.
  - eapply (Stu i _ DrainOk); [exact Hi|discriminate|reflexivity].
  - exact (Fg _ _ _ Hi Logic.I).
  - exact (Fg _ _ _ Hi Logic.I).
  - exact (Fg _ _ _ Hi Logic.I).
  - exact (Fg _ _ _ Hi Logic.I).
  - eapply (Stu i _ (Next Stop)); [exact Hi|discriminate|reflexivity].
  - eapply (Stu i _ DrainOk); [exact Hi|discriminate|reflexivity].
  - eapply (Stu i _ DrainOk); [exact Hi|discriminate|reflexivity].
  - exact K.
  - destruct K as [K _]. specialize (Td K). unfold T_done in Td.
    destruct (p_T st) as [| | | | | | |[e|]] eqn:HT; try discriminate;
      (eapply (Stu i _ Go); [exact Hi|discriminate|]; cbn [step_call]; rewrite HT; reflexivity).
  - eapply (Stu i _ Go); [exact Hi|discriminate|]. cbn [step_call]. rewrite (Td K). reflexivity.
  - destruct HC as [HC|[[e|] HC]]; [exact (proj1 (proj2 S0) K HC)|..];
      (eapply (Stu i _ Go); [exact Hi|discriminate|]; cbn [step_call]; rewrite HC; reflexivity).
  - eapply (Stu i _ Go); [exact Hi|discriminate|]. cbn [step_call]. rewrite Il. reflexivity.
  - exact (De r eq_refl).
Qed.
End Hang.
