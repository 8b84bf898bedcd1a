(* Once the connection is closed, tasks and calls take a bounded number of steps. *)
From Verif Require Import Base.Prelude Base.PreludeFacts Model.Streams Model.Frames Model.LegacyFraming Model.LegacyProtocol
  Spec.AsyncioHang Proofs.FramesFacts Proofs.ParserFacts Proofs.LegacyRead Proofs.LegacyWaiter.

Section Termination.
Context {E : Type} (X : ext_ops E) (cfg : config).
Implicit Type st : conn E.

Definition fut_wt (f : fut) : nat := if fut_done f then 1 else 0.
Lemma fut_wt_le f : fut_wt f <= 1. Proof. unfold fut_wt. destruct (fut_done f); lia. Qed.
Lemma get_fut_pending futs w : get_fut (futs ++ [FPending]) w = get_fut futs w.
Proof.
  unfold get_fut. destruct (Nat.lt_ge_cases w (length futs)).
  - now apply app_nth1.
  - rewrite app_nth2 by lia. rewrite (nth_overflow futs) by lia. destruct (w - length futs) as [|[]]; reflexivity.
Qed.
Lemma get_fut_fresh futs : get_fut futs (length futs) = FPending.
Proof. unfold get_fut. apply nth_overflow. lia. Qed.

Section Weight.
Context (U : nat).
Definition user_wt (pops frags : list fut) (u : upc * bool) : nat :=
  match fst u with
  | UDone _ => 0
  | UEnsure | UWaitClosed | UCloseC _ => 1
  | UDrain | UPingDrain _ | UCloseT2 _ => 2
  | URecvWait w => 2 + fut_wt (get_fut pops w)
  | UCloseT _ _ => 3
  | UCloseEnsure _ _ => 4
  | UCloseWrite _ _ => 5
  | UFragEnsure | UANext _ => U + 1
  | UFragLast => U + 2
  | UFragDrain _ _ => U + 3
  | USendFrag w _ => U + 4 + fut_wt (get_fut frags w)
  | UStart _ => U + 10
  end.
Definition T_wt (puts : list fut) (buffer : bytes) (pc : tpc) : nat :=
  match pc with
  | TNone | TDone _ => 0
  | TRead _ => length buffer * (U + 6) + 2
  | TPongDrain _ => length buffer * (U + 6) + 3
  | TPut _ w => length buffer * (U + 6) + U + 3 + fut_wt (get_fut puts w)
  | TPongEnsure _ | TCloseEnsure _ => 1
  | TCloseDrain _ => 2
  end.
End Weight.
Definition K_wt (pc : kpc) : nat :=
  match pc with
  | KNone | KDone => 0 | KPingEnsure => 1 | KSleep _ => 2 | KPong _ _ => 3 | KPingDrain _ => 4 | KStart => 5
  end.
Definition C_wt (pc : cpc) : nat :=
  match pc with
  | CDone _ => 0 | CLost4 _ _ => 1 | CLost3 _ _ => 2 | CLost2 _ => 3 | CLost1 _ => 4 | CWaitT => 5 | CStart => 6 | CNone => 7
  end.
Fixpoint sum {A} (f : A -> nat) (l : list A) : nat := match l with [] => 0 | x :: l => f x + sum f l end.
Lemma sum_le {A} (f g : A -> nat) k l : (forall x, f x <= g x + k) -> sum f l <= sum g l + k * length l.
Proof. intros H. induction l as [|x l IH]; simpl; [lia|]. specialize (H x). lia. Qed.
Lemma sum_replace {A} (f : A -> nat) i (v x : A) l : nth_error l i = Some x -> sum f (replace i v l) + f x = sum f l + f v.
Proof.
  revert i. induction l as [|y l IH]; intros [|i] H; simpl in *; try discriminate.
  - injection H as ->. lia.
  - specialize (IH i H). lia.
Qed.
Lemma replace_length {A} (v : A) i l : length (replace i v l) = length l.
Proof. revert i. induction l; intros [|i]; simpl; congruence. Qed.

Definition U_wt st : nat := sum (user_wt (length (p_users st)) (p_pops st) (p_frags st)) (p_users st).
Definition weight st : nat :=
  T_wt (length (p_users st)) (p_puts st) (r_buffer (p_reader st)) (p_T st) + K_wt (p_K st) + C_wt (p_C st) + U_wt st.

(* fail_connection *)
Definition settle st : conn E :=
  match p_C st with CNone => set_C CStart (cancel_T st) | _ => cancel_T st end.
Lemma fail_closed st code : p_state st = Closed -> fail_connection X cfg st code = (settle st, None).
Proof.
  intros H. unfold fail_connection, settle, cancel_T.
  destruct (T_exists st && negb (T_done st)); cbn [p_state set_Tcancel is_open];
    rewrite H; cbn [is_open andb]; rewrite andb_false_r; cbn [p_C set_Tcancel]; destruct (p_C st); reflexivity.
Qed.
Ltac settled := intros; unfold settle, cancel_T; destruct (T_exists _ && _); cbn [p_C set_Tcancel];
  match goal with |- context [match p_C ?s with _ => _ end] => destruct (p_C s) end; reflexivity.
Lemma settle_state st : p_state (settle st) = p_state st. Proof. settled. Qed.
Lemma settle_T st : p_T (settle st) = p_T st. Proof. settled. Qed.
Lemma settle_K st : p_K (settle st) = p_K st. Proof. settled. Qed.
Lemma settle_users st : p_users (settle st) = p_users st. Proof. settled. Qed.
Lemma settle_reader st : p_reader (settle st) = p_reader st. Proof. settled. Qed.
Lemma settle_pops st : p_pops (settle st) = p_pops st. Proof. settled. Qed.
Lemma settle_puts st : p_puts (settle st) = p_puts st. Proof. settled. Qed.
Lemma settle_frags st : p_frags (settle st) = p_frags st. Proof. settled. Qed.
Lemma settle_frag st : p_frag (settle st) = p_frag st. Proof. settled. Qed.
Lemma settle_close st : p_close (settle st) = p_close st. Proof. settled. Qed.
Lemma settle_C st : C_wt (p_C (settle st)) <= C_wt (p_C st).
Proof.
  unfold settle, cancel_T. destruct (T_exists _ && _); cbn [p_C set_Tcancel]; destruct (p_C st) eqn:Q;
    cbn [p_C set_C set_Tcancel]; rewrite ?Q; simpl; lia.
Qed.
Ltac st_ := rewrite ?settle_state, ?settle_T, ?settle_K, ?settle_users, ?settle_reader, ?settle_pops, ?settle_puts,
  ?settle_frags, ?settle_frag in *.

(** transfer_data *)
Definition quietT (st st' : conn E) : Prop :=
  p_state st' = p_state st /\ p_users st' = p_users st /\ p_K st' = p_K st /\ C_wt (p_C st') <= C_wt (p_C st) /\
  p_frags st' = p_frags st /\ (forall w, fut_wt (get_fut (p_pops st') w) <= fut_wt (get_fut (p_pops st) w) + 1).
(* the pop futures are the same *)
Definition sameT st st' : Prop := quietT st st' /\ p_pops st' = p_pops st.
Lemma weight_T st st' : quietT st st' ->
  T_wt (length (p_users st)) (p_puts st') (r_buffer (p_reader st')) (p_T st') + length (p_users st)
    < T_wt (length (p_users st)) (p_puts st) (r_buffer (p_reader st)) (p_T st) ->
  weight st' < weight st.
Proof.
  intros (_ & HU & HK & HC & HF & HP) HT. unfold weight, U_wt. rewrite HU, HK, HF.
  pose proof (sum_le (user_wt (length (p_users st)) (p_pops st') (p_frags st))
    (user_wt (length (p_users st)) (p_pops st) (p_frags st)) 1 (p_users st)) as L.
  assert (forall x, user_wt (length (p_users st)) (p_pops st') (p_frags st) x
    <= user_wt (length (p_users st)) (p_pops st) (p_frags st) x + 1) as L0.
  { intros [pc c]. unfold user_wt. cbn [fst]. destruct pc; try lia. specialize (HP w). lia. }
  specialize (L L0). lia.
Qed.
Lemma weight_T_same st st' : sameT st st' ->
  T_wt (length (p_users st)) (p_puts st') (r_buffer (p_reader st')) (p_T st')
    < T_wt (length (p_users st)) (p_puts st) (r_buffer (p_reader st)) (p_T st) ->
  weight st' < weight st.
Proof.
  intros ((_ & HU & HK & HC & HF & _) & HP) HT. unfold weight, U_wt. rewrite HU, HK, HF, HP. lia.
Qed.
Ltac qs := unfold sameT, quietT; repeat match goal with |- _ /\ _ => split end; try reflexivity;
  try apply Nat.le_refl; try (intros; apply Nat.le_add_r).
Lemma sameT_refl st : sameT st st.
Proof. qs. Qed.
Lemma sameT_raise st e : p_state st = Closed -> sameT st (T_raise X cfg st e) /\ exists r, p_T (T_raise X cfg st e) = TDone r.
Proof.
  intros H. unfold T_raise. destruct e; try (rewrite (fail_closed _ _ H)); split; try (eexists; reflexivity);
    unfold sameT, quietT; cbn [p_state p_users p_K p_C p_frags p_pops set_T]; st_;
    (split; [|reflexivity]); (split; [reflexivity|]); (split; [reflexivity|]); (split; [reflexivity|]);
    (split; [try apply settle_C; lia|]); (split; [reflexivity|]); intros; lia.
Qed.
Lemma replace_wt w futs w' : fut_wt (get_fut (replace w FResult futs) w') <= fut_wt (get_fut futs w') + 1.
Proof. pose proof (fut_wt_le (get_fut (replace w FResult futs) w')). lia. Qed.

Definition landed (b : bytes) (U : nat) st' : Prop :=
  T_wt U (p_puts st') (r_buffer (p_reader st')) (p_T st') <= length b * (U + 6) + U + 3.
(* with the message in the queue, or not *)
Lemma put_wt st m : p_state st = Closed ->
  let st' := put_message X cfg st m in
  quietT st st' /\
  ((T_wt (length (p_users st)) (p_puts st') (r_buffer (p_reader st')) (p_T st') <= length (r_buffer (p_reader st)) * (length (p_users st) + 6) + 2) \/
   (p_pops st' = p_pops st /\
    T_wt (length (p_users st)) (p_puts st') (r_buffer (p_reader st')) (p_T st') = length (r_buffer (p_reader st)) * (length (p_users st) + 6) + length (p_users st) + 3)).
Proof.
  intros H. unfold put_message. destruct (room cfg st).
  - cbn [p_pop set_messages p_pops]. destruct (p_pop st) as [w|].
    + unfold set_result. destruct (fut_done (get_fut (p_pops st) w)).
      * pose proof (sameT_raise (set_messages (p_messages st ++ [m]) st) InvalidStateError H) as [[A _] [r B]].
        split; [exact A|]. left. rewrite B. cbn [T_wt]. lia.
      * split.
        -- unfold quietT. cbn. split; [reflexivity|]. split; [reflexivity|]. split; [reflexivity|]. split; [lia|]. split; [reflexivity|].
           intros w'. apply replace_wt.
        -- left. cbn [p_T set_T T_wt p_reader set_pop set_pops set_messages p_puts]. lia.
    + split; [qs|].
      left. cbn [p_T set_T T_wt p_reader set_pop set_pops set_messages p_puts]. lia.
  - split; [qs|].
    right. split; [reflexivity|]. cbn [p_T set_T T_wt p_reader set_put set_puts p_puts].
    rewrite get_fut_pending, get_fut_fresh. unfold fut_wt. simpl. lia.
Qed.

Lemma quietT_trans s1 s2 s3 : sameT s1 s2 -> quietT s2 s3 -> quietT s1 s3.
Proof.
  intros ((A1 & A2 & A3 & A4 & A5 & _) & A6) (B1 & B2 & B3 & B4 & B5 & B6). unfold quietT.
  rewrite B1, B2, B3, B5. split; [assumption|]. split; [assumption|]. split; [assumption|]. split; [lia|]. split; [assumption|].
  rewrite <- A6. assumption.
Qed.
Lemma sameT_trans s1 s2 s3 : sameT s1 s2 -> sameT s2 s3 -> sameT s1 s3.
Proof.
  intros A (B & B6). split; [exact (quietT_trans _ _ _ A B)|]. destruct A as (_ & A6). congruence.
Qed.

Lemma on_frame_wt st c f : p_state st = Closed ->
  let st' := on_frame X cfg st c f in
  quietT st st' /\
  ((T_wt (length (p_users st)) (p_puts st') (r_buffer (p_reader st')) (p_T st') <= length (r_buffer (p_reader st)) * (length (p_users st) + 6) + 2) \/
   (p_pops st' = p_pops st /\
    T_wt (length (p_users st)) (p_puts st') (r_buffer (p_reader st')) (p_T st') = length (r_buffer (p_reader st)) * (length (p_users st) + 6) + length (p_users st) + 3)).
Proof.
  intros H. cbn zeta.
  assert (R : forall e s1, sameT st s1 -> quietT st (T_raise X cfg s1 e) /\
    (T_wt (length (p_users st)) (p_puts (T_raise X cfg s1 e)) (r_buffer (p_reader (T_raise X cfg s1 e))) (p_T (T_raise X cfg s1 e))
      <= length (r_buffer (p_reader st)) * (length (p_users st) + 6) + 2)).
  { intros e s1 S1. assert (H1 : p_state s1 = Closed) by (destruct S1 as ((A & _) & _); congruence).
    destruct (sameT_raise s1 e H1) as [A [r B]]. split; [exact (quietT_trans _ _ _ S1 (proj1 A))|]. rewrite B. cbn [T_wt]. lia. }
  assert (RR : forall e s1, sameT st s1 -> quietT st (T_raise X cfg s1 e) /\
    ((T_wt (length (p_users st)) (p_puts (T_raise X cfg s1 e)) (r_buffer (p_reader (T_raise X cfg s1 e))) (p_T (T_raise X cfg s1 e))
      <= length (r_buffer (p_reader st)) * (length (p_users st) + 6) + 2) \/
    (p_pops (T_raise X cfg s1 e) = p_pops st /\
    T_wt (length (p_users st)) (p_puts (T_raise X cfg s1 e)) (r_buffer (p_reader (T_raise X cfg s1 e))) (p_T (T_raise X cfg s1 e)) = length (r_buffer (p_reader st)) * (length (p_users st) + 6) + length (p_users st) + 3))).
  { intros e s1 S1. destruct (R e s1 S1). auto. }
  assert (S0 := sameT_refl st).
  unfold on_frame. destruct (f_opcode f).
  1-3: destruct (read_message cfg c f);
    [now apply put_wt|split; [exact (proj1 S0)|left; cbn [p_T set_T T_wt p_reader]; lia]|now apply RR].
  - destruct (parse_close (f_data f)) as [close|e]; [|now apply RR].
    unfold write_close_frame. cbn [p_state set_close]. rewrite H. cbn [is_open].
    assert (S1 : sameT st (set_close (Some close) st)) by (qs).
    unfold after_close. destruct c; [|now apply RR|now apply RR].
    split; [exact (proj1 S0)|]. left. cbn [p_T set_T T_wt]. lia.
  - unfold ensure_open. rewrite H. now apply RR.
  - unfold receive_pong. destruct (has_ping st (f_data f)); [destruct (acknowledge _ _ _)|];
      (split; [exact (proj1 S0)|left; cbn [p_T set_T T_wt p_reader set_pings set_pongs]; lia]).
Qed.

Lemma closed_after_drain st a st1 r : p_state st = Closed -> after_drain X cfg st a = Some (st1, r) ->
  (st1 = st /\ r = EOk) \/ ((st1 = settle st \/ st1 = st) /\ exists e, r = ERaise e).
Proof.
  intros H. unfold after_drain. rewrite (fail_closed _ _ H). unfold ensure_open. rewrite settle_state, H.
  destruct a; try discriminate.
  - intros K. apply some_inj, pair_equal_spec in K as [<- <-]. auto.
  - destruct (p_lost st) as [[[]|]|]; destruct o; try discriminate; intros K; apply some_inj, pair_equal_spec in K as [<- <-]; eauto.
Qed.
Lemma sameT_settle st : sameT st (settle st).
Proof.
  unfold sameT, quietT. st_. split; [|reflexivity]. split; [reflexivity|]. split; [reflexivity|]. split; [reflexivity|].
  split; [apply settle_C|]. split; [reflexivity|]. intros; lia.
Qed.
Lemma raise_decreases st s1 e : p_state st = Closed -> sameT st s1 ->
  0 < T_wt (length (p_users st)) (p_puts st) (r_buffer (p_reader st)) (p_T st) ->
  weight (T_raise X cfg s1 e) < weight st /\ p_state (T_raise X cfg s1 e) = Closed.
Proof.
  intros H S1 L. assert (H1 : p_state s1 = Closed) by (destruct S1 as ((A & _) & _); congruence).
  destruct (sameT_raise s1 e H1) as [A [r B]]. split.
  - apply weight_T_same; [exact (sameT_trans _ _ _ S1 A)|]. rewrite B. cbn [T_wt]. exact L.
  - destruct A as ((A & _) & _). congruence.
Qed.
Lemma after_close_decreases st s1 c : p_state st = Closed -> sameT st s1 ->
  0 < T_wt (length (p_users st)) (p_puts st) (r_buffer (p_reader st)) (p_T st) ->
  weight (after_close X cfg s1 c) < weight st /\ p_state (after_close X cfg s1 c) = Closed.
Proof.
  intros H S1 L. unfold after_close. destruct c; try (apply raise_decreases; assumption).
  split; [|destruct S1 as ((A & _) & _); cbn; congruence].
  apply weight_T_same; [|cbn [p_T set_T T_wt]; exact L].
  apply (sameT_trans _ _ _ S1). qs.
Qed.

Lemma T_decreases st a st' : p_state st = Closed -> step_T X cfg st a = Some st' ->
  weight st' < weight st /\ p_state st' = Closed.
Proof.
  intros H. unfold step_T.
  assert (S0 := sameT_refl st).
  assert (W : forall s1, s1 = settle st \/ s1 = st -> sameT st s1).
  { intros s1 [-> | ->]; [apply sameT_settle|exact S0]. }
  destruct (p_T st) as [|c|c|c|c|c|m w|e] eqn:HT; try discriminate; destruct (p_Tcancel st);
    try (destruct a; try discriminate; intros Q; apply some_inj in Q as <-; apply raise_decreases; [assumption| |rewrite HT; cbn [T_wt]; lia];
      qs).
  - destruct a; try discriminate. unfold read_frame.
    assert (P : 0 < T_wt (length (p_users st)) (p_puts st) (r_buffer (p_reader st)) (p_T st)) by (rewrite HT; cbn [T_wt]; lia).
    assert (RD : match run (legacy_read X (negb (c_client cfg)) (read_limit cfg c)) (p_reader st) (p_exts st) with
       | OSusp _ _ _ => None
       | ODone f r exts => Some (on_frame X cfg (set_in (p_in st ++ [f]) (set_reader r (set_exts exts st))) c f)
       | OFail e r exts => Some (T_raise X cfg (set_reader r (set_exts exts st)) (PyExn e))
       end = Some st' -> weight st' < weight st /\ p_state st' = Closed).
    { destruct (run _ _ _) as [?|f r exts|e r exts] eqn:R; try discriminate; intros Q; apply some_inj in Q as <-.
      - set (s1 := set_in _ _). assert (S1 : sameT st s1) by (subst s1; qs).
        assert (H1 : p_state s1 = Closed) by exact H.
        destruct (on_frame_wt s1 c f H1) as [A B]. cbn zeta in A, B.
        assert (L : length (r_buffer r) < length (r_buffer (p_reader st))).
        { change (legacy_read X) with (frame_parse X) in R. unfold frame_parse in R. exact (parse_frame_consumes X _ _ _ _ _ _ _ _ _ R). }
        assert (A' := quietT_trans _ _ _ S1 A).
        change (p_users s1) with (p_users st) in B. change (p_reader s1) with r in B.
        assert (L2 : length (r_buffer r) * (length (p_users st) + 6) + (length (p_users st) + 6)
           <= length (r_buffer (p_reader st)) * (length (p_users st) + 6)).
        { rewrite <- Nat.mul_succ_l. apply Nat.mul_le_mono_r. exact L. }
        split; [|destruct A as (A & _); congruence].
        destruct B as [B|[B1 B2]].
        + apply weight_T; [exact A'|]. rewrite HT. cbn [T_wt]. lia.
        + apply weight_T_same; [split; [exact A'|exact B1]|]. rewrite B2, HT. cbn [T_wt]. lia.
      - apply raise_decreases; [assumption| |assumption]. qs. }
    destruct (p_lost st) as [[o|]|]; [|exact RD|exact RD].
    intros Q. apply some_inj in Q as <-. apply raise_decreases; [assumption|exact S0|assumption].
  - destruct (after_drain X cfg st a) as [[s1 r]|] eqn:D; [|discriminate]. intros Q.
    destruct (closed_after_drain _ _ _ _ H D) as [[-> ->]|[HS [e ->]]]; apply some_inj in Q as <-.
    + split; [|exact H]. apply weight_T_same; [exact S0|]. cbn [p_T set_T p_puts p_reader]. rewrite HT. cbn [T_wt]. lia.
    + apply raise_decreases; [assumption|auto|rewrite HT; cbn [T_wt]; lia].
  - destruct a; try discriminate. destruct (ensure_open_end st); [|discriminate]. intros Q; apply some_inj in Q as <-.
    apply raise_decreases; [assumption|exact S0|rewrite HT; cbn [T_wt]; lia].
  - destruct (after_drain X cfg st a) as [[s1 r]|] eqn:D; [|discriminate]. intros Q.
    destruct (closed_after_drain _ _ _ _ H D) as [[-> ->]|[HS [e ->]]]; apply some_inj in Q as <-.
    + apply after_close_decreases; [assumption|exact S0|rewrite HT; cbn [T_wt]; lia].
    + destruct (is_closed_exn e); [apply after_close_decreases|apply raise_decreases]; auto; rewrite HT; cbn [T_wt]; lia.
  - destruct a; try discriminate. destruct (ensure_open_end st); [|discriminate]. intros Q; apply some_inj in Q as <-.
    destruct (is_closed_exn _); [apply after_close_decreases|apply raise_decreases]; auto; rewrite HT; cbn [T_wt]; lia.
  - destruct a; try discriminate. destruct (fut_done (get_fut (p_puts st) w)) eqn:F; [|discriminate]. intros Q; apply some_inj in Q as <-.
    assert (S1 : sameT st (set_put None st)) by (qs).
    destruct (put_wt (set_put None st) m H) as [A B]. cbn zeta in A, B.
    assert (A' := quietT_trans _ _ _ S1 A).
    change (p_users (set_put None st)) with (p_users st) in B. change (p_reader (set_put None st)) with (p_reader st) in B.
    split; [|destruct A as (A & _); cbn in A; congruence].
    destruct B as [B|[B1 B2]].
    + apply weight_T; [exact A'|]. rewrite HT. cbn [T_wt]. unfold fut_wt. rewrite F. lia.
    + apply weight_T_same; [split; [exact A'|exact B1]|]. rewrite B2, HT. cbn [T_wt]. unfold fut_wt. rewrite F. lia.
Qed.

(** The other tasks *)
Lemma weight_K st s1 pc : p_state st = Closed -> s1 = settle st \/ s1 = st -> K_wt pc < K_wt (p_K st) ->
  weight (set_K pc s1) < weight st /\ p_state (set_K pc s1) = Closed.
Proof.
  intros H S1 L. pose proof (settle_C st).
  assert (p_users s1 = p_users st /\ p_T s1 = p_T st /\ p_reader s1 = p_reader st /\ p_pops s1 = p_pops st /\
    p_puts s1 = p_puts st /\ p_frags s1 = p_frags st /\ C_wt (p_C s1) <= C_wt (p_C st) /\ p_state s1 = Closed)
    as (A1 & A2 & A3 & A4 & A5 & A6 & A7 & A8).
  { destruct S1 as [-> | ->]; st_; repeat match goal with |- _ /\ _ => split end; auto. }
  split; [|exact A8]. unfold weight, U_wt. cbn [p_users p_T p_reader p_pops p_puts p_frags p_K p_C set_K].
  rewrite A1, A2, A3, A4, A5, A6. lia.
Qed.
Lemma K_decreases st a st' : p_state st = Closed -> step_K X cfg st a = Some st' ->
  weight st' < weight st /\ p_state st' = Closed.
Proof.
  intros H. unfold step_K.
  destruct (p_K st) as [| |d|data| |w d|] eqn:HK; try discriminate; destruct (p_Kcancel st);
    try (destruct a; try discriminate; intros Q; apply some_inj in Q as <-; apply weight_K; [assumption|now right|rewrite HK; simpl; lia]).
  - destruct a; try discriminate. destruct (c_ping_interval cfg); intros Q; apply some_inj in Q as <-;
      (apply weight_K; [assumption|now right|rewrite HK; simpl; lia]).
  - destruct a; try discriminate. destruct (d <=? p_now st)%N; [|discriminate]. unfold ensure_open. rewrite H.
    intros Q; apply some_inj in Q as <-. apply weight_K; [assumption|now right|rewrite HK; simpl; lia].
  - destruct (after_drain X cfg st a) as [[s1 r]|] eqn:D; [|discriminate]. intros Q.
    destruct (closed_after_drain _ _ _ _ H D) as [[-> ->]|[HS [e ->]]]; apply some_inj in Q as <-.
    + unfold after_ping. destruct (find_ping st data); [destruct (c_ping_timeout cfg)|];
        (apply weight_K; [assumption|now right|rewrite HK; simpl; lia]).
    + apply weight_K; [assumption|exact HS|rewrite HK; simpl; lia].
  - destruct a; try discriminate. destruct (ensure_open_end st); [|discriminate]. intros Q; apply some_inj in Q as <-.
    apply weight_K; [assumption|now right|rewrite HK; simpl; lia].
  - destruct a; try discriminate.
    + destruct (get_fut (p_pongs st) w); try discriminate; intros Q; apply some_inj in Q as <-;
        (apply weight_K; [assumption|now right|rewrite HK; simpl; lia]).
    + destruct (d <=? p_now st)%N; [|discriminate]. rewrite (fail_closed _ _ H). intros Q; apply some_inj in Q as <-.
      apply weight_K; [assumption|now left|rewrite HK; simpl; lia].
Qed.

Definition onlyC (st st' : conn E) : Prop :=
  p_users st' = p_users st /\ p_T st' = p_T st /\ p_reader st' = p_reader st /\ p_pops st' = p_pops st /\
  p_puts st' = p_puts st /\ p_frags st' = p_frags st /\ p_K st' = p_K st /\ p_state st' = p_state st.
Lemma weight_C st st' : p_state st = Closed -> onlyC st st' -> C_wt (p_C st') < C_wt (p_C st) ->
  weight st' < weight st /\ p_state st' = Closed.
Proof.
  intros H (A1 & A2 & A3 & A4 & A5 & A6 & A7 & A8) L. split; [|congruence].
  unfold weight, U_wt. rewrite A1, A2, A3, A4, A5, A6, A7. lia.
Qed.
Lemma close_tcp_C st e : onlyC st (close_tcp cfg st e) /\ C_wt (p_C (close_tcp cfg st e)) <= 2.
Proof.
  unfold close_tcp. destruct (is_lost st && p_closing st); [|destruct (is_lost (set_closing true st))];
    (split; [unfold onlyC; repeat split|simpl; lia]).
Qed.
Lemma onlyC_trans s1 s2 s3 : onlyC s1 s2 -> onlyC s2 s3 -> onlyC s1 s3.
Proof. unfold onlyC. intuition congruence. Qed.
Lemma half_close_C st : onlyC st (half_close cfg st) /\ C_wt (p_C (half_close cfg st)) <= 3.
Proof.
  unfold half_close. destruct (c_can_write_eof cfg).
  - destruct (is_lost (set_eof_written true st)).
    + destruct (close_tcp_C (set_eof_written true st) None) as [A B]. split; [|lia].
      refine (onlyC_trans _ _ _ _ A). unfold onlyC; repeat split.
    + split; [unfold onlyC; repeat split|simpl; lia].
  - destruct (close_tcp_C st None) as [A B]. split; [exact A|lia].
Qed.
Lemma after_transfer_C st : onlyC st (after_transfer cfg st) /\ C_wt (p_C (after_transfer cfg st)) <= 4.
Proof.
  unfold after_transfer. set (s1 := match p_K st with KNone => st | _ => set_Kcancel true st end).
  assert (S1 : onlyC st s1) by (subst s1; destruct (p_K st); unfold onlyC; repeat split).
  destruct (c_client cfg && T_exists s1).
  - destruct (is_lost s1).
    + destruct (close_tcp_C s1 None) as [A B]. split; [exact (onlyC_trans _ _ _ S1 A)|lia].
    + split; [|simpl; lia]. refine (onlyC_trans _ _ _ S1 _). unfold onlyC; repeat split.
  - destruct (half_close_C s1) as [A B]. split; [exact (onlyC_trans _ _ _ S1 A)|lia].
Qed.
Lemma C_decreases st a st' : p_state st = Closed -> step_C cfg st a = Some st' ->
  weight st' < weight st /\ p_state st' = Closed.
Proof.
  intros H. unfold step_C.
  pose proof (close_tcp_C st) as CT. pose proof (half_close_C st) as [HC1 HC2]. pose proof (after_transfer_C st) as [AT1 AT2].
  assert (CL : forall e, 2 < C_wt (p_C st) -> weight (close_tcp cfg st e) < weight st /\ p_state (close_tcp cfg st e) = Closed).
  { intros e L. destruct (CT e) as [A B]. apply weight_C; [assumption|exact A|lia]. }
  assert (SC : forall c, C_wt c < C_wt (p_C st) -> weight (set_C c st) < weight st /\ p_state (set_C c st) = Closed).
  { intros c L. apply weight_C; [assumption|unfold onlyC; repeat split|exact L]. }
  destruct (p_C st) as [| | |d|d|d e|d e|e] eqn:HQ; destruct a; try discriminate.
  - destruct (T_exists st); intros Q; apply some_inj in Q as <-; [apply SC; simpl; lia|].
    apply weight_C; [assumption|exact AT1|rewrite HQ; simpl; lia].
  - destruct (p_T st) as [| | | | | | |[e|]]; try discriminate; intros Q; apply some_inj in Q as <-; [apply CL; simpl; lia|].
    apply weight_C; [assumption|exact AT1|rewrite HQ; simpl; lia].
  - destruct (is_lost st); [|discriminate]. intros Q; apply some_inj in Q as <-. apply CL; simpl; lia.
  - destruct (expired st d); [|discriminate]. intros Q; apply some_inj in Q as <-. destruct (is_lost st); [apply CL; simpl; lia|].
    apply weight_C; [assumption|exact HC1|rewrite HQ; simpl; lia].
  - destruct (is_lost st); [|discriminate]. intros Q; apply some_inj in Q as <-. apply CL; simpl; lia.
  - destruct (expired st d); [|discriminate]. intros Q; apply some_inj in Q as <-. apply CL; simpl; lia.
  - destruct (is_lost st); [|discriminate]. intros Q; apply some_inj in Q as <-. apply SC; simpl; lia.
  - destruct (expired st d); [|discriminate]. destruct (is_lost st); intros Q; apply some_inj in Q as <-; [apply SC; simpl; lia|].
    apply weight_C; [assumption|unfold onlyC; repeat split|rewrite HQ; simpl; lia].
  - destruct (is_lost st); [|discriminate]. intros Q; apply some_inj in Q as <-. apply SC; simpl; lia.
  - destruct (expired st d); [|discriminate]. intros Q; apply some_inj in Q as <-. apply SC; simpl; lia.
Qed.

(** Calls *)
(* up to k more results of futures of fragments, and j of futures of put *)
Definition near (k j : nat) (st s1 : conn E) : Prop :=
  p_state s1 = p_state st /\ p_users s1 = p_users st /\ p_K s1 = p_K st /\ C_wt (p_C s1) <= C_wt (p_C st) /\
  p_T s1 = p_T st /\ p_reader s1 = p_reader st /\
  (forall w, get_fut (p_pops s1) w = get_fut (p_pops st) w) /\
  (forall w, fut_wt (get_fut (p_puts s1) w) <= fut_wt (get_fut (p_puts st) w) + j) /\
  (forall w, fut_wt (get_fut (p_frags s1) w) <= fut_wt (get_fut (p_frags st) w) + k).
Ltac near := unfold near; repeat match goal with |- _ /\ _ => split end; try reflexivity; try apply Nat.le_refl;
  try (intros; apply Nat.le_add_r); try (intros; rewrite Nat.add_0_r; apply Nat.le_refl).
Lemma near_refl k j st : near k j st st. Proof. near. Qed.
Lemma near_settle k j st : near k j st (settle st).
Proof.
  unfold near. st_. repeat match goal with |- _ /\ _ => split end; try reflexivity; try apply settle_C; intros; lia.
Qed.
Lemma near_trans k j s1 s2 s3 : near 0 0 s1 s2 -> near k j s2 s3 -> near k j s1 s3.
Proof.
  intros (A1 & A2 & A3 & A4 & A5 & A6 & A7 & A8 & A9) (B1 & B2 & B3 & B4 & B5 & B6 & B7 & B8 & B9).
  unfold near. repeat match goal with |- _ /\ _ => split end; try congruence; try lia.
  - intros w. specialize (A8 w). specialize (B8 w). lia.
  - intros w. specialize (A9 w). specialize (B9 w). lia.
Qed.
Definition wt st (u : upc * bool) : nat := user_wt (length (p_users st)) (p_pops st) (p_frags st) u.
Definition good st st' : Prop := weight st' < weight st /\ p_state st' = Closed.
Lemma set_user_good k j st s1 i pc c pc' :
  p_state st = Closed -> near k j st s1 -> nth_error (p_users st) i = Some (pc, c) ->
  wt st (pc', false) + k * length (p_users st) + j < wt st (pc, c) -> good st (set_user i pc' s1).
Proof.
  intros H (A1 & A2 & A3 & A4 & A5 & A6 & A7 & A8 & A9) Hi L. split; [|cbn; congruence].
  unfold weight, U_wt. unfold set_user. cbn [p_users p_T p_reader p_pops p_puts p_frags p_K p_C set_users].
  rewrite A2, A3, A5, A6, replace_length.
  pose proof (sum_replace (wt st) i (pc', false) (pc, c) (p_users st) Hi) as SR.
  pose proof (sum_le (user_wt (length (p_users st)) (p_pops s1) (p_frags s1)) (wt st) k (replace i (pc', false) (p_users st))) as L1.
  rewrite replace_length in L1.
  assert (L2 : forall x, user_wt (length (p_users st)) (p_pops s1) (p_frags s1) x <= wt st x + k).
  { intros [q c']. unfold wt, user_wt. cbn [fst]. destruct q; try lia; [rewrite A7; lia|specialize (A9 w); lia]. }
  specialize (L1 L2).
  assert (L3 : T_wt (length (p_users st)) (p_puts s1) (r_buffer (p_reader st)) (p_T st)
    <= T_wt (length (p_users st)) (p_puts st) (r_buffer (p_reader st)) (p_T st) + j).
  { unfold T_wt. destruct (p_T st); try lia. specialize (A8 w). lia. }
  change (sum (user_wt (length (p_users st)) (p_pops st) (p_frags st)) (p_users st)) with (sum (wt st) (p_users st)). lia.
Qed.
Lemma near_frags st v futs : (forall w, fut_wt (get_fut futs w) <= fut_wt (get_fut (p_frags st) w) + 1) ->
  near 1 0 st (set_frag v (set_frags futs st)).
Proof. intros H. near. exact H. Qed.

Lemma end_fragments_good st s1 i pc c r : p_state st = Closed -> near 0 0 st s1 -> nth_error (p_users st) i = Some (pc, c) ->
  length (p_users st) < wt st (pc, c) -> good st (end_fragments s1 i r).
Proof.
  intros H S1 Hi L. unfold end_fragments.
  assert (R : forall r, good st (return_ i r s1)).
  { intros r'. apply (set_user_good 0 0 st s1 i pc c); auto. simpl. lia. }
  destruct (p_frag s1) as [w|]; [|apply R]. unfold set_result. destruct (fut_done _); [apply R|].
  apply (set_user_good 1 0 st _ i pc c); auto; [|simpl; lia].
  refine (near_trans _ _ _ _ _ S1 _). apply near_frags. intros w'. apply replace_wt.
Qed.
Lemma raise_fragments_good st s1 i pc c e : p_state st = Closed -> near 0 0 st s1 -> nth_error (p_users st) i = Some (pc, c) ->
  length (p_users st) < wt st (pc, c) -> good st (raise_fragments X cfg s1 i e).
Proof.
  intros H S1 Hi L. assert (H1 : p_state s1 = Closed) by (destruct S1; congruence).
  unfold raise_fragments. rewrite (fail_closed _ _ H1). destruct e;
    (apply (end_fragments_good st _ i pc c); auto; try exact (near_trans _ _ _ _ _ S1 (near_settle 0 0 s1))).
Qed.
Lemma write_closed st by_ fin op data : p_state st = Closed ->
  write_frame X cfg st by_ fin op data Open = (st, Some (InvalidState [])).
Proof. intros H. unfold write_frame. rewrite H. reflexivity. Qed.
Lemma send_item_good st s1 i pc c op rest d : p_state st = Closed -> near 0 0 st s1 -> nth_error (p_users st) i = Some (pc, c) ->
  length (p_users st) < wt st (pc, c) -> good st (send_item X cfg s1 i op rest d).
Proof.
  intros H S1 Hi L. assert (H1 : p_state s1 = Closed) by (destruct S1; congruence).
  unfold send_item. destruct (prepare_data d) as [[op' data]|e]; [|now apply (raise_fragments_good st s1 i pc c)].
  destruct (negb _); [now apply (raise_fragments_good st s1 i pc c)|]. rewrite (write_closed _ _ _ _ _ H1).
  now apply (raise_fragments_good st s1 i pc c).
Qed.
Lemma send_last_good st s1 i pc c : p_state st = Closed -> near 0 0 st s1 -> nth_error (p_users st) i = Some (pc, c) ->
  length (p_users st) < wt st (pc, c) -> good st (send_last X cfg s1 i).
Proof.
  intros H S1 Hi L. assert (H1 : p_state s1 = Closed) by (destruct S1; congruence).
  unfold send_last. rewrite (write_closed _ _ _ _ _ H1). now apply (raise_fragments_good st s1 i pc c).
Qed.
Lemma send_next_good st s1 i pc c op src : p_state st = Closed -> near 0 0 st s1 -> nth_error (p_users st) i = Some (pc, c) ->
  length (p_users st) + 1 < wt st (pc, c) -> good st (send_next X cfg s1 i op src).
Proof.
  intros H S1 Hi L. unfold send_next. destruct src as [[|d rest] [e|]|].
  - apply (raise_fragments_good st s1 i pc c); auto; lia.
  - apply (send_last_good st s1 i pc c); auto; lia.
  - apply (send_item_good st s1 i pc c); auto; lia.
  - apply (send_item_good st s1 i pc c); auto; lia.
  - apply (set_user_good 0 0 st s1 i pc c); auto. unfold wt at 1. cbn [user_wt fst]. lia.
Qed.
Lemma send_first_good st i pc c rest d : p_state st = Closed -> nth_error (p_users st) i = Some (pc, c) ->
  length (p_users st) < wt st (pc, c) -> good st (send_first X cfg st i rest d).
Proof.
  intros H Hi L. unfold send_first. destruct (prepare_data d) as [[op data]|e].
  - rewrite write_closed by exact H.
    apply (raise_fragments_good st _ i pc c); auto.
    near. intros w. cbn [p_frags set_frag set_frags]. rewrite get_fut_pending. lia.
  - apply (set_user_good 0 0 st st i pc c); auto using near_refl. simpl. lia.
Qed.
Lemma send_loop_good st i pc c m : p_state st = Closed -> nth_error (p_users st) i = Some (pc, c) ->
  (forall w, p_frag st = Some w -> length (p_users st) + 4 + fut_wt (get_fut (p_frags st) w) < wt st (pc, c)) ->
  length (p_users st) + 1 < wt st (pc, c) -> good st (send_loop X cfg st i m).
Proof.
  intros H Hi LF L. unfold send_loop.
  assert (R : forall r, good st (return_ i r st)).
  { intros r'. apply (set_user_good 0 0 st st i pc c); auto using near_refl. simpl. lia. }
  destruct (p_frag st) as [w|].
  - apply (set_user_good 0 0 st st i pc c); auto using near_refl. specialize (LF w eq_refl). unfold wt at 1. cbn [user_wt fst]. lia.
  - destruct m as [d| |[|d rest] e| |]; try apply R.
    + destruct (prepare_data d) as [[op data]|e]; [|apply R]. rewrite write_closed by exact H. apply R.
    + destruct e; apply R.
    + apply (send_first_good st i pc c); auto. lia.
    + apply (set_user_good 0 0 st st i pc c); auto using near_refl. unfold wt at 1. cbn [user_wt fst]. lia.
Qed.
Lemma recv_loop_good st s1 i pc c : p_state st = Closed -> near 0 0 st s1 -> nth_error (p_users st) i = Some (pc, c) ->
  p_pops s1 = p_pops st -> 2 < wt st (pc, c) -> good st (recv_loop s1 i).
Proof.
  intros H S1 Hi HP L. unfold recv_loop.
  assert (R : forall r k j s2, near k j s1 s2 -> k * length (p_users st) + j < wt st (pc, c) -> good st (return_ i r s2)).
  { intros r k j s2 S2 L2. apply (set_user_good k j st s2 i pc c); [exact H|exact (near_trans _ _ _ _ _ S1 S2)|exact Hi|].
    unfold wt at 1. cbn [user_wt fst]. lia. }
  destruct (p_messages s1) as [|m rest].
  - set (s2 := set_pops _ _).
    assert (S2 : near 0 0 s1 s2) by (subst s2; near; intros w; apply get_fut_pending).
    destruct (T_exists s2).
    + apply (set_user_good 0 0 st _ i pc c); auto.
      * refine (near_trans _ _ _ _ _ S1 _). refine (near_trans _ _ _ _ _ S2 _). near.
      * unfold wt at 1. cbn [user_wt fst]. rewrite HP, get_fut_fresh. unfold fut_wt. simpl. lia.
    + apply (R _ 0 0); [|lia]. refine (near_trans _ _ _ _ _ S2 _). near.
  - destruct (p_put (set_messages rest s1)) as [w|].
    + unfold set_result. destruct (fut_done _).
      * apply (R _ 0 0); [near|lia].
      * apply (R _ 0 1); [|lia]. near. intros w'. cbn [p_puts set_delivered set_put set_puts set_messages]. apply replace_wt.
    + apply (R _ 0 0); [near|lia].
Qed.
Lemma close_wait_good st s1 i pc c t : p_state st = Closed -> near 0 0 st s1 -> nth_error (p_users st) i = Some (pc, c) ->
  3 < wt st (pc, c) -> good st (close_wait_T cfg s1 i t).
Proof.
  intros H S1 Hi L. unfold close_wait_T. destruct (T_exists s1);
    (apply (set_user_good 0 0 st s1 i pc c); auto; unfold wt at 1; cbn [user_wt fst]; lia).
Qed.
Lemma close_timed_out_good st s1 i pc c t : p_state st = Closed -> near 0 0 st s1 -> nth_error (p_users st) i = Some (pc, c) ->
  3 < wt st (pc, c) -> good st (close_timed_out X cfg s1 i t).
Proof.
  intros H S1 Hi L. assert (H1 : p_state s1 = Closed) by (destruct S1; congruence).
  unfold close_timed_out. rewrite (fail_closed _ _ H1). apply (close_wait_good st _ i pc c); auto.
  exact (near_trans _ _ _ _ _ S1 (near_settle 0 0 s1)).
Qed.
Lemma near_cancel st : near 0 0 st (cancel_T st).
Proof. unfold cancel_T. destruct (T_exists st && _); near. Qed.
Lemma cancel_good st i pc : p_state st = Closed -> nth_error (p_users st) i = Some (pc, true) ->
  (forall r, pc <> UDone r) -> good st (cancel_call X cfg st i pc).
Proof.
  intros H Hi HD. pose proof (near_refl 0 0 st) as S0.
  assert (R : forall s1 pc', near 0 0 st s1 -> wt st (pc', false) < wt st (pc, true) -> good st (set_user i pc' s1)).
  { intros s1 pc' S1 L. apply (set_user_good 0 0 st s1 i pc true); auto. lia. }
  assert (D : forall e, good st (raise_ i e st)).
  { intros e. apply R; [exact S0|]. unfold wt. cbn [user_wt fst]. destruct pc; cbn [user_wt fst]; try lia. now specialize (HD r). }
  assert (F : length (p_users st) < wt st (pc, true) -> good st (raise_fragments X cfg st i CancelledError)).
  { intros L. now apply (raise_fragments_good st st i pc true). }
  unfold cancel_call. destruct pc; try apply D.
  - apply F. unfold wt. cbn [user_wt fst]. lia.
  - apply F. unfold wt. cbn [user_wt fst]. lia.
  - apply F. unfold wt. cbn [user_wt fst]. lia.
  - destruct op; [|apply D]. apply F. unfold wt. cbn [user_wt fst]. lia.
  - apply R; [apply near_cancel|]. unfold wt. cbn [user_wt fst]. lia.
  - apply R; [exact S0|]. unfold wt. cbn [user_wt fst]. lia.
Qed.
Lemma start_good st i call c a st' : p_state st = Closed -> nth_error (p_users st) i = Some (UStart call, c) ->
  start_call X cfg st i call a = Some st' -> good st st'.
Proof.
  intros H Hi. pose proof (near_refl 0 0 st) as S0.
  assert (R : forall s1 pc', near 0 0 st s1 -> wt st (pc', false) < wt st (UStart call, c) -> good st (set_user i pc' s1)).
  { intros s1 pc' S1 L. apply (set_user_good 0 0 st s1 i (UStart call) c); auto. lia. }
  assert (D : forall e, good st (raise_ i e st)).
  { intros e. apply R; [exact S0|]. unfold wt. cbn [user_wt fst]. lia. }
  unfold start_call, ensure_open. rewrite H.
  destruct call; destruct a; try discriminate; intros Q; apply some_inj in Q as <-; try apply D.
  - destruct (p_pop st); [apply D|]. apply (recv_loop_good st st i (UStart CallRecv) c); auto. unfold wt. cbn [user_wt fst]. lia.
  - unfold close_start. destruct (serialize_close code reason); [|apply D].
    assert (L : 3 < wt st (UStart (CallClose code reason), c)) by (unfold wt; cbn [user_wt fst]; lia).
    assert (W : good st (let '(s1, r) := write_close_frame X cfg st (ByCall i) a in
       match r with
       | None => close_wait_T cfg s1 i (p_now s1)
       | Some (Some e) => raise_ i (PyExn e) s1
       | Some None => set_user i (UCloseWrite (deadline s1 (c_close_timeout cfg)) (p_now s1)) s1
       end)).
    { unfold write_close_frame. rewrite H. cbn [is_open]. exact (close_wait_good st st i _ c _ H S0 Hi L). }
    assert (W' : good st (close_timed_out X cfg st i (p_now st))) by (apply (close_timed_out_good st st i _ c _ H S0 Hi); exact L).
    unfold write_close_frame in *. rewrite H in *. cbn [is_open] in *.
    destruct (c_close_timeout cfg) as [[|]|]; assumption.
  - apply R; [exact S0|]. unfold wt. cbn [user_wt fst]. lia.
Qed.
Lemma call_good st i pc a st' : p_state st = Closed -> nth_error (p_users st) i = Some (pc, false) ->
  (forall r, pc <> UDone r) -> frag_ok st -> step_call X cfg st i pc a = Some st' -> good st st'.
Proof.
  intros H Hi HD FO. pose proof (near_refl 0 0 st) as S0.
  assert (R : forall s1 pc', near 0 0 st s1 -> wt st (pc', false) < wt st (pc, false) -> good st (set_user i pc' s1)).
  { intros s1 pc' S1 L. apply (set_user_good 0 0 st s1 i pc false); auto. lia. }
  assert (D : forall s1 r, near 0 0 st s1 -> good st (return_ i r s1)).
  { intros s1 r S1. apply R; [exact S1|]. unfold wt. cbn [user_wt fst]. destruct pc; cbn [user_wt fst]; try lia. now specialize (HD r0). }
  assert (D0 := fun r => D st r S0).
  assert (W : forall s1, s1 = settle st \/ s1 = st -> near 0 0 st s1).
  { intros s1 [-> | ->]; [apply near_settle|exact S0]. }
  unfold step_call. destruct pc.
  - now apply (start_good st i c false).
  - destruct a; try discriminate. destruct (fut_done (get_fut (p_pops st) w)) eqn:F; cbn [orb].
    + intros Q; apply some_inj in Q as <-. unfold recv_resume. cbn [p_pops set_pop]. rewrite F.
      apply (recv_loop_good st _ i (URecvWait w) false); [exact H|near|exact Hi|reflexivity|]. unfold wt. cbn [user_wt fst]. unfold fut_wt. rewrite F. lia.
    + destruct (T_done st); [|discriminate]. intros Q; apply some_inj in Q as <-. unfold recv_resume. cbn [p_pops set_pop]. rewrite F.
      assert (S1 : near 0 0 st (set_pop None st)) by near.
      destruct (c_legacy_recv cfg); [now apply D|]. unfold ensure_open. cbn [p_state set_pop]. rewrite H. now apply D.
  - destruct a; try discriminate. destruct (fut_done (get_fut (p_frags st) w)) eqn:F; [|discriminate]. intros Q; apply some_inj in Q as <-.
    assert (WT : wt st (USendFrag w m, false) = length (p_users st) + 5) by (unfold wt; cbn [user_wt fst]; unfold fut_wt; rewrite F; lia).
    apply (send_loop_good st i _ false m H Hi); rewrite WT; [|lia].
    intros w' Q. specialize (FO w' Q). unfold fut_wt. rewrite FO. lia.
  - destruct a; try discriminate. destruct (ensure_open_end st); [|discriminate]. intros Q; apply some_inj in Q as <-. apply D0.
  - destruct (after_drain X cfg st a) as [[s1 r]|] eqn:Dr; [|discriminate]. intros Q.
    destruct (closed_after_drain _ _ _ _ H Dr) as [[-> ->]|[HS [e ->]]]; apply some_inj in Q as <-; apply D; auto.
  - destruct (after_drain X cfg st a) as [[s1 r]|] eqn:Dr; [|discriminate]. intros Q.
    destruct (closed_after_drain _ _ _ _ H Dr) as [[-> ->]|[HS [e ->]]]; apply some_inj in Q as <-.
    + apply (send_next_good st st i _ false _ _ H S0 Hi). unfold wt. cbn [user_wt fst]. lia.
    + apply (raise_fragments_good st s1 i _ false _ H (W _ HS) Hi). unfold wt. cbn [user_wt fst]. lia.
  - destruct (after_drain X cfg st a) as [[s1 r]|] eqn:Dr; [|discriminate]. intros Q.
    destruct (closed_after_drain _ _ _ _ H Dr) as [[-> ->]|[HS [e ->]]]; apply some_inj in Q as <-.
    + apply (end_fragments_good st st i _ false _ H S0 Hi). unfold wt. cbn [user_wt fst]. lia.
    + apply (raise_fragments_good st s1 i _ false _ H (W _ HS) Hi). unfold wt. cbn [user_wt fst]. lia.
  - destruct a; try discriminate. destruct (ensure_open_end st); [|discriminate]. intros Q; apply some_inj in Q as <-.
    apply (raise_fragments_good st st i _ false _ H S0 Hi). unfold wt. cbn [user_wt fst]. lia.
  - destruct op; destruct a as [| | | | |[d| |e]]; try discriminate; intros Q; apply some_inj in Q as <-; try apply D0.
    + apply (send_item_good st st i _ false _ _ _ H S0 Hi). unfold wt. cbn [user_wt fst]. lia.
    + apply (send_last_good st st i _ false H S0 Hi). unfold wt. cbn [user_wt fst]. lia.
    + apply (raise_fragments_good st st i _ false _ H S0 Hi). unfold wt. cbn [user_wt fst]. lia.
    + apply (send_first_good st i _ false _ _ H Hi). unfold wt. cbn [user_wt fst]. lia.
  - destruct (after_drain X cfg st a) as [[s1 r]|] eqn:Dr; [|discriminate]. intros Q.
    destruct (closed_after_drain _ _ _ _ H Dr) as [[-> ->]|[HS [e ->]]]; apply some_inj in Q as <-; [|apply D; auto].
    destruct (find_ping st data); apply D0.
  - assert (L : 3 < wt st (UCloseWrite d t0, false)) by (unfold wt; cbn [user_wt fst]; lia).
    assert (DR : match after_drain X cfg st a with
       | None => None
       | Some (st, EOk) => Some (close_wait_T cfg st i t0)
       | Some (st, ERaise e) => Some (raise_ i e st)
       | Some (st, EWait) => Some (set_user i (UCloseEnsure d t0) st)
       end = Some st' -> good st st').
    { destruct (after_drain X cfg st a) as [[s1 r]|] eqn:Dr; [|discriminate]. intros Q.
      destruct (closed_after_drain _ _ _ _ H Dr) as [[-> ->]|[HS [e ->]]]; apply some_inj in Q as <-; [|apply D; auto].
      apply (close_wait_good st st i _ false _ H S0 Hi L). }
    destruct a; try exact DR. destruct (expired st d); [|discriminate]. intros Q; apply some_inj in Q as <-.
    apply (close_timed_out_good st st i _ false _ H S0 Hi L).
  - destruct a; try discriminate.
    + destruct (ensure_open_end st); [|discriminate]. intros Q; apply some_inj in Q as <-. apply D0.
    + destruct (expired st d); [|discriminate]. intros Q; apply some_inj in Q as <-.
      apply (close_timed_out_good st st i _ false _ H S0 Hi). unfold wt; cbn [user_wt fst]; lia.
  - destruct a; try discriminate.
    + destruct (p_T st) as [| | | | | | |[e|]]; try discriminate; intros Q; apply some_inj in Q as <-; [apply D0|].
      apply R; [exact S0|]. unfold wt; cbn [user_wt fst]; lia.
    + destruct (expired st d); [|discriminate]. intros Q; apply some_inj in Q as <-.
      apply R; [apply near_cancel|]. unfold wt; cbn [user_wt fst]; lia.
  - destruct a; try discriminate. destruct (T_done st); [|discriminate]. intros Q; apply some_inj in Q as <-.
    apply R; [exact S0|]. unfold wt; cbn [user_wt fst]; lia.
  - destruct a; try discriminate. destruct (p_C st) as [| | | | | | |[e|]]; try discriminate; intros Q; apply some_inj in Q as <-; apply D0.
  - destruct a; try discriminate. destruct (is_lost st); [|discriminate]. intros Q; apply some_inj in Q as <-. apply D0.
  - now specialize (HD r).
Qed.
Lemma user_good st i a st' : p_state st = Closed -> frag_ok st -> step_user X cfg st i a = Some st' -> good st st'.
Proof.
  intros H FO. unfold step_user. destruct (nth_error (p_users st) i) as [[pc c]|] eqn:Hi; [|discriminate].
  assert (R : (forall r, pc <> UDone r) -> (if c then match a with Go => Some (cancel_call X cfg st i pc) | _ => None end
    else step_call X cfg st i pc a) = Some st' -> good st st').
  { intros HD. destruct c.
    - destruct a; try discriminate. intros Q; apply some_inj in Q as <-. now apply cancel_good.
    - now apply call_good. }
  destruct pc; destruct c; try (apply R; intros; discriminate); discriminate.
Qed.

(** Sequences of steps *)
Lemma weight_now st d : weight (set_now d st) = weight st. Proof. reflexivity. Qed.
Lemma bounded st ls st' : p_state st = Closed -> frag_ok st -> Forall (fun l => runs l = true \/ exists d, l = LTick d) ls ->
  exec X cfg st ls = Some st' -> length (filter runs ls) + weight st' <= weight st.
Proof.
  intros H FO Hl. revert st H FO. induction Hl as [|l ls P Hl IH]; intros st H FO Q; cbn [exec] in Q.
  - apply some_inj in Q as <-. simpl. lia.
  - destruct (step X cfg st l) as [s1|] eqn:S1; [|discriminate].
    assert (FO1 := step_fo X cfg _ _ _ S1 FO).
    destruct l; try (destruct P as [P|[d' P]]; discriminate); cbn [step] in S1.
    + apply some_inj in S1 as <-. exact (IH (set_now (p_now st + d) st) H FO1 Q).
    + apply T_decreases in S1 as [W C]; [|exact H]. specialize (IH _ C FO1 Q). cbn [filter runs length]. lia.
    + apply K_decreases in S1 as [W C]; [|exact H]. specialize (IH _ C FO1 Q). cbn [filter runs length]. lia.
    + apply C_decreases in S1 as [W C]; [|exact H]. specialize (IH _ C FO1 Q). cbn [filter runs length]. lia.
    + apply user_good in S1 as [W C]; [|exact H|exact FO]. specialize (IH _ C FO1 Q). cbn [filter runs length]. lia.
Qed.
End Termination.
