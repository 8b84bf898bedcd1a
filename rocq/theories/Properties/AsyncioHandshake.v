(* The closing handshake between two endpoints of this library completes (C88). *)
From Verif Require Import Base.Prelude Base.PreludeFacts Base.Utf8 Model.Streams Model.Frames
  Model.LegacyFraming Model.LegacyProtocol Spec.Rfc6455 Spec.FrameSpec Spec.Messages Spec.Asyncio Spec.AsyncioKeepalive Spec.AsyncioHang
  Spec.AsyncioCloseCodes Spec.AsyncioFailures Spec.AsyncioHandshake
  Proofs.StreamsFacts Proofs.FramesFacts Proofs.ParserFacts Proofs.WireUnique
  Proofs.LegacyPrims Proofs.LegacyShapes Proofs.LegacyUsers Proofs.LegacyFields Proofs.LegacyQueue Proofs.LegacyMessages Proofs.LegacyAuthors
  Proofs.LegacyClose Proofs.LegacyTiming Proofs.LegacyRecv Proofs.LegacyWire Proofs.LegacyGrowth Proofs.LegacyEndToEnd Proofs.LegacyHang Proofs.LegacyCloseOrigin
  Proofs.LegacyFailures Proofs.LegacyPeer Proofs.LegacyHandshaking
  Properties.FrameCodec Properties.AsyncioState Properties.AsyncioMessages Properties.AsyncioCalls
  Properties.AsyncioSends Properties.AsyncioEndToEnd Properties.AsyncioCloseCodes Properties.AsyncioFailures.
Local Open Scope N_scope.

(* ---- C88 ---- *)

(* Reading from a connection which isn't at the end of the stream *)
Lemma read_flowing {E} (X : ext_ops E) mask max buf fl wl later :
  Forall2 (framed mask) later wl -> concat wl = buf ++ fl -> Forall (fun f => check f = Ok tt) later ->
  (forall e r ex, run (legacy_read X mask max) {| r_buffer := buf; r_eof := false |} [] = OFail e r ex ->
     exists f later', later = f :: later' /\ ~ fits max (length (f_data f))) /\
  (forall g r ex, fl = [] -> run (legacy_read X mask max) {| r_buffer := buf; r_eof := false |} [] = OSusp g r ex ->
     later = []).
Proof.
  intros F Cc Ck.
  assert (D : forall g : frame, fits max (length (f_data g)) \/ ~ fits max (length (f_data g))).
  { intros g. unfold fits. destruct max; [|now left]. destruct (Z.le_gt_cases (Z.of_nat (length (f_data g))) z); [now left|right; lia]. }
  split.
  - intros e r ex R1.
    assert (Lv : StreamsFacts.live (legacy_read X mask max)) by (change (legacy_read X) with (frame_parse X); apply live_parse_frame).
    pose proof (run_feed (legacy_read X mask max) {| r_buffer := buf; r_eof := false |} [] fl (live_live_at _ _ Lv) eq_refl) as Fd.
    rewrite R1 in Fd. destruct Fd as [Fd _]. unfold grow in Fd. cbn [r_buffer r_eof] in Fd. rewrite <- Cc in Fd.
    destruct F as [|g w' later wl (k & L & M) F].
    { cbn [concat] in Cc. exfalso. destruct buf; [|discriminate]. clear - R1. revert R1.
      unfold legacy_read, legacy_read_wire. cbn. discriminate. }
    exists g, later. split; [reflexivity|]. inversion Ck as [|? ? Cg _]; subst. cbn [concat] in Fd.
    change (legacy_read X) with (frame_parse X) in Fd.
    destruct (C05_frame_acceptance E X (is_masked (on_wire g k)) max _ _ (concat wl) false L) as [Ok Bad].
    assert (Ac : acceptable (on_wire g k)) by (apply check_acceptable; exact Cg).
    destruct (D g) as [Dg|Dg]; [|exact Dg].
    destruct Ok as (f & _ & R); [split; [exact Ac|]; split; [reflexivity|exact Dg]|]. rewrite R in Fd. discriminate.
  - intros g0 r ex -> Run. rewrite app_nil_r in Cc. destruct F as [|g w' later wl (k & L & M) F]; [reflexivity|]. exfalso.
    inversion Ck as [|? ? Cg _]; subst. cbn [concat] in *.
    change (legacy_read X) with (frame_parse X) in Run.
    destruct (C05_frame_acceptance E X (is_masked (on_wire g k)) max _ _ (concat wl) false L) as [Ok Bad].
    destruct (D g) as [Dg|Dg].
    + destruct Ok as (f & _ & R); [split; [apply check_acceptable; exact Cg|]; split; [reflexivity|exact Dg]|]. congruence.
    + destruct Bad as (e' & r' & _ & R); [intros (_ & _ & Z); exact (Dg Z)|]. congruence.
Qed.

(* The close code doesn't become unknown again. *)
Lemma close_stays {E} (X : ext_ops E) cfg (st : conn E) l st' : p_close st <> None -> step X cfg st l = Some st' -> p_close st' <> None.
Proof.
  intros Nn H. assert (Same : p_close st' = p_close st -> p_close st' <> None) by congruence.
  destruct l; cbn [step] in H.
  - destruct (p_state st); try discriminate. destruct (p_C st); try discriminate. apply some_inj in H as <-. exact Nn.
  - destruct (fail_connection _ _ _ _) as [st2 e2] eqn:F. apply some_inj in H as <-.
    shapes. exact Nn.
  - destruct (r_eof _); [discriminate|]. apply some_inj in H as <-. exact Nn.
  - destruct (r_eof _); [discriminate|]. apply some_inj in H as <-. exact Nn.
  - assert (H' : connection_lost st o closing = st') by (destruct (p_state st); congruence). clear H. subst st'.
    unfold connection_lost. cbv zeta. cbn [p_close set_state set_closing].
    destruct (p_close st) as [k|] eqn:Ck; [|now contradiction Nn].
    destruct (abort_futs _ _ _) as [futs []]; cbn [set_reader set_lost set_pongs set_state set_closing p_close]; rewrite Ck; discriminate.
  - apply some_inj in H as <-. exact Nn.
  - apply some_inj in H as <-. exact Nn.
  - apply some_inj in H as <-. exact Nn.
  - destruct (nth_error _ _) as [[[] ?]|]; try discriminate; apply some_inj in H as <-; exact Nn.
  - apply step_T_close in H as [(_ & _ & A3 & _)|(_ & c & f & _ & _ & A4)]; [now apply Same|].
    destruct A4 as [(x & _ & B2 & _)|[_ B2]]; [congruence|now apply Same].
  - apply step_K_shape in H as (? & ? & ? & ? & ? & ? & ? & ? & ->). exact Nn.
  - apply step_C_shape in H as (? & ? & ? & ? & ? & ->). exact Nn.
  - apply step_user_still in H as (_ & _ & H3 & _). now apply Same.
Qed.

(* transfer_data doesn't wait for close_connection after sending a Close frame. *)
Lemma no_close_ensure {E} (X : ext_ops E) cfg exts ls (st : conn E) : exec X cfg (initial exts) ls = Some st ->
  forall c, p_T st <> TCloseEnsure c.
Proof.
  intros H. assert (G : Base st /\ forall c, p_T st <> TCloseEnsure c); [|apply G]. revert H.
  apply (exec_steps X cfg (fun st => Base st /\ forall c, p_T st <> TCloseEnsure c)); [|split; [apply Base_initial|discriminate]].
  clear st. intros st l st' [B I] H. split; [eapply Base_step; eauto|].
  assert (D : (exists a, l = LT a) \/ forall a, l <> LT a) by (destruct l; eauto; right; discriminate).
  destruct D as [(a & ->)|D].
  2:{ assert (D' : l = LOpen \/ l <> LOpen) by (destruct l; auto; right; discriminate). destruct D' as [->|D'].
      - cbn [step] in H. destruct (p_state st); try discriminate. destruct (p_C st); try discriminate. apply some_inj in H as <-. discriminate.
      - destruct (step_T_alone X cfg st l st' H D D') as [-> _]. exact I. }
  cbn [step] in H. destruct B as (_ & L & _).
  assert (Rs : forall st1 e c, p_T (T_raise X cfg st1 e) <> TCloseEnsure c).
  { intros st1 e c. unfold T_raise. destruct (fail_connection _ _ _ _) as [st2 e2]. destruct e; discriminate. }
  assert (Ac : forall st1 c0 c, p_T (after_close X cfg st1 c0) <> TCloseEnsure c).
  { intros st1 c0 c. unfold after_close. destruct c0; try apply Rs. discriminate. }
  assert (Pm : forall st1 m c, p_T (put_message X cfg st1 m) <> TCloseEnsure c).
  { intros st1 m c. unfold put_message. destruct (room cfg st1); [|discriminate].
    destruct (p_pop _); [|discriminate]. destruct (set_result _ _); [discriminate|apply Rs]. }
  unfold step_T in H. destruct (p_T st) as [|c|c|c|c|c|m w|e] eqn:HT; try discriminate; (destruct (p_Tcancel st);
    [destruct a; try discriminate; apply some_inj in H as <-; intros ?; apply Rs|]).
  - destruct a; try discriminate. unfold read_frame in H.
    assert (G : match run (legacy_read X (negb (c_client cfg)) (read_limit cfg c)) (p_reader st) (p_exts st) with
        | OSusp _ _ _ => None
        | OFail e r exts => Some (T_raise X cfg (set_reader r (set_exts exts st)) (PyExn e))
        | ODone f r exts =>
          let st := set_in (p_in st ++ [f]) (set_reader r (set_exts exts st)) in
          Some (on_frame X cfg st c f)
        end = Some st' -> forall c, p_T st' <> TCloseEnsure c).
    { clear H. destruct (run _ _ _) as [? ? ?|f r ex|e r ex]; cbv zeta; try discriminate; intros H; apply some_inj in H as <-; [|apply Rs].
      set (st1 := set_in _ _). intros c1. unfold on_frame.
      assert (Dt : p_T match read_message cfg c f with
         | RMsg m => put_message X cfg st1 m
         | RNext c => set_T (TRead c) st1
         | RExn e => T_raise X cfg st1 (PyExn e)
         end <> TCloseEnsure c1) by (destruct (read_message cfg c f); [apply Pm|discriminate|apply Rs]).
      destruct (f_opcode f); try exact Dt.
      - destruct (parse_close _); [|apply Rs]. destruct (write_close_frame _ _ _ _ _) as [st2 [[?|]|]]; [apply Rs|discriminate|apply Ac].
      - destruct (ensure_open _); [|apply Rs|discriminate]. destruct (write_frame _ _ _ _ _ _ _ _) as [st2 [?|]]; [apply Rs|discriminate].
      - discriminate. }
    destruct (p_lost st) as [[o|]|]; [|now apply G|now apply G]. apply some_inj in H as <-. apply Rs.
  - destruct (after_drain X cfg st a) as [[st2 r]|]; [|discriminate].
    destruct r; apply some_inj in H as <-; [discriminate|apply Rs|discriminate].
  - destruct a; try discriminate. destruct (ensure_open_end st); [|discriminate]. apply some_inj in H as <-. apply Rs.
  - destruct (after_drain X cfg st a) as [[st2 r]|] eqn:Dr; [|discriminate].
    destruct r; apply some_inj in H as <-; [apply Ac|intros c1; destruct (is_closed_exn e); [apply Ac|apply Rs]|].
    exfalso. revert Dr. unfold after_drain. destruct a; try discriminate.
    destruct (p_lost st) as [lo|] eqn:Lo; [|discriminate].
    assert (Cd : p_state st = Closed) by (apply L; congruence).
    assert (G : (let '(st3, _) := fail_connection X cfg st 1006 in Some (st3, ensure_open st3)) <> Some (st2, EWait)).
    { unfold fail_connection. cbn [negb Z.eqb andb Pos.eqb].
      assert (Cs : p_state (cancel_T st) = Closed) by (rewrite LegacyCloseOrigin.cancel_T_state; exact Cd).
      intros Z. apply some_inj, pair_equal_spec in Z as [_ Z]. revert Z. unfold ensure_open.
      destruct (p_C (cancel_T st)); cbn [set_C p_state]; rewrite Cs; discriminate. }
    destruct lo as [[]|]; destruct o; try discriminate; exact G.
  - now contradiction (I c).
  - destruct a; try discriminate. destruct (fut_done _); [|discriminate]. apply some_inj in H as <-. apply Pm.
Qed.

Section Pair.
Context {E : Type} (X : ext_ops E) (extsA extsB : list E) (AC : accepts_control X).
Context (cfgA cfgB : config).
Hypothesis KB : forall n, length (c_key cfgB n) = 4%nat.
(* A is well-behaved, and B can read what A sends. *)
Context (okA : list label -> Prop) (fine : list sent -> Prop).
Hypothesis okA_prefix : forall ls l, okA (ls ++ [l]) -> okA ls.
Hypothesis fine_prefix : forall l l', fine (l ++ l') -> fine l.
Hypothesis reads_sent : forall lsA (stA : conn E) lsB (stB : conn E),
  execution X cfgA extsA lsA stA -> okA lsA -> execution X cfgB extsB lsB stB -> in_transit (p_out stA) (incoming lsB) ->
  exists later, map o_frame (p_out stA) = p_in stB ++ later.
Hypothesis reads_well : forall lsA (stA : conn E) lsB (stB : conn E),
  execution X cfgA extsA lsA stA -> okA lsA -> execution X cfgB extsB lsB stB -> in_transit (p_out stA) (incoming lsB) ->
  fine (p_out stA) -> r_eof (p_reader stB) = false -> harmless X cfgB stB.
Hypothesis reads_all : forall lsA (stA : conn E) lsB (stB : conn E) c g r ex,
  execution X cfgA extsA lsA stA -> okA lsA -> execution X cfgB extsB lsB stB -> flat_map o_bytes (p_out stA) = incoming lsB ->
  p_T stB = TRead c -> r_eof (p_reader stB) = false ->
  run (legacy_read X (negb (c_client cfgB)) (read_limit cfgB c)) (p_reader stB) (p_exts stB) = OSusp g r ex ->
  map o_frame (p_out stA) = p_in stB.
Lemma close_parses lsA (stA : conn E) x : execution X cfgA extsA lsA stA -> In x (p_out stA) ->
  f_opcode (o_frame x) = CLOSE -> exists k, parse_close (f_data (o_frame x)) = Ok k.
Proof.
  intros HA Hx Op. destruct (C86_origin _ X cfgA extsA lsA stA x HA Hx Op) as (code & reason & Z).
  assert (Cl' : close_frame (o_frame x) code reason) by (destruct Z as [Z|Z]; [exact (chosen_close _ _ _ _ Z)|apply Z]).
  apply close_frame_parses in Cl' as [_ Z']. eauto.
Qed.

(* Until it receives the Close frame of A, B reads; then it has written a Close frame, too. *)
Definition Inv (stB : conn E) : Prop :=
  (p_close stB = None -> Q stB /\ J cfgB stB) /\
  (p_close stB <> None -> wrote_close stB /\ ~ Forall not_close (p_in stB)).
Hypothesis Timeout : exists t, c_close_timeout cfgB = Some t /\ 0 < t.
Lemma undisturbed_prefix cfg exts ls l : undisturbed X cfg exts (ls ++ [l]) -> undisturbed X cfg exts ls.
Proof.
  intros U before l' after st -> H. apply (U before l' (after ++ [l])); [|exact H]. now rewrite <- app_assoc.
Qed.
Lemma Inv_connected lsA stA lsB stB : connected X cfgA extsA cfgB extsB lsA stA lsB stB ->
  okA lsA -> no_overlap X cfgB extsB lsB -> undisturbed X cfgB extsB lsB -> Forall short_reason lsB ->
  fine (p_out stA) -> Inv stB.
Proof.
  destruct Timeout as (t & Ht & Pt).
  assert (T0 : c_close_timeout cfgB <> Some 0) by (rewrite Ht; intros Z; injection Z as ->; lia).
  assert (T1 : c_close_timeout cfgB <> None) by (rewrite Ht; discriminate).
  induction 1 as [|lsA stA lsB stB l stA' C IH S T|lsA stA lsB stB l stB' C IH S T]; intros NA NB Un Sr Big.
  - split; [|intros Z; now contradiction Z]. intros _. split; [apply Q_initial|apply (J_initial X)].
  - destruct (connected_runs _ _ _ _ _ _ _ _ _ _ C) as (HA & _ & _).
    apply IH; auto; [exact (okA_prefix _ _ NA)|].
    destruct (origin_step X cfgA extsA lsA l stA stA' HA S) as [(new & Hn & _) _]. rewrite Hn in Big. exact (fine_prefix _ _ Big).
  - destruct (connected_runs _ _ _ _ _ _ _ _ _ _ C) as (HA & HB & TA & _).
    apply Forall_app in Sr as [Sr Srl]. inversion Srl as [|? ? Sl _]; subst.
    destruct (IH NA (no_overlap_prefix _ _ _ _ _ NB) (undisturbed_prefix _ _ _ _ Un) Sr Big) as [I1 I2]. clear IH.
    assert (HB' : exec X cfgB (initial extsB) (lsB ++ [l]) = Some stB')
      by (rewrite exec_app; unfold execution in HB; rewrite HB; cbn [exec]; now rewrite S).
    destruct (origin_step X cfgB extsB lsB l stB stB' HB S) as [(new & Ho & _) (more & Hi)].
    destruct (p_close stB) as [k|] eqn:Pc.
    { destruct (I2 ltac:(discriminate)) as [W Nf]. assert (Nn : p_close stB <> None) by congruence.
      pose proof (close_stays X cfgB stB l stB' Nn S) as Nn'. split; [contradiction|]. intros _.
      split; [exact (wrote_more _ _ _ Ho W)|]. rewrite Hi. intros Fa. apply Forall_app in Fa as [Fa _]. contradiction. }
    destruct (I1 eq_refl) as [Iq Ij]. clear I1 I2.
    assert (Nd : ~ disturbs X cfgB lsB stB l) by (apply (Un lsB l [] stB); [reflexivity|exact HB|exact Pc]).
    assert (Ca : calm stB l).
    { destruct l; cbn [disturbs calm] in *; auto; try (destruct a; auto; fail).
      intros pc c Hu Hi'. apply Nd. eauto. }
    pose proof (J_recv _ _ Ij) as ((Wt & Wp) & _).
    assert (Pr : proceeds stB stB').
    { apply (step_Q X cfgB AC KB T0 stB l stB'); auto.
      - apply (J_base _ _ Ij).
      - split; assumption.
      - intros i a pc c -> Hu Se Ra. apply Nd.
        destruct (sending_call X cfgB extsB lsB stB i pc c HB Hu Se) as [m Hm].
        assert (Lt : (i < length (p_users stB'))%nat).
        { destruct (Authors_exec X cfgB extsB (lsB ++ [LUser i a]) stB' HB') as (Ln & _).
          rewrite Ln. apply nth_error_Some. rewrite (calls_more _ _ _ _ Hm). discriminate. }
        apply nth_error_Some in Lt. destruct (nth_error (p_users stB') i) as [[pc' c']|] eqn:U'; [|contradiction].
        destruct (Ra pc' c' U') as (e & -> & ->). cbn [disturbs]. destruct a; try exact Logic.I; exists stB', m, e; auto.
      - intros i code reason x c Hu Ux.
        pose proof (Started_exec X cfgB extsB lsB stB HB i _ c Hu) as Hi'. apply nth_error_In in Hi'.
        unfold calls in Hi'. apply in_flat_map in Hi' as (l' & Hl & Hi'). destruct l'; try contradiction.
        destruct Hi' as [->|[]]. rewrite Forall_forall in Sr. exact (Sr _ Hl code reason x eq_refl Ux).
      - exact (reads_well lsA stA lsB stB HA NA HB TA Big (Q_eof _ Iq)). }
    assert (Lo : p_lost stB' = None).
    { destruct (p_lost_step X cfgB stB l stB' S) as [[-> _]|Z]; [exact (Q_lost _ Iq)|]. 
      exfalso. destruct Z as (o & c & -> & _). exact (Nd Logic.I). }
    destruct Pr as [P1 P2]. split.
    + intros Z. split; [exact (P1 Z)|]. 
      apply (J_step X cfgB AC KB T1 stB l stB' Ij); [| |exact Sl|exact S].
      * apply (NB lsB l []); [reflexivity|exact HB].
      * intros (i & d & t0 & c & -> & Hu). apply Nd. exists (UCloseWrite d t0), c. split; [exact Hu|exact Logic.I].
    + intros Z. split; [exact (P2 Z)|]. intros Fa.
      destruct (Code_exec X cfgB extsB (lsB ++ [l]) stB' HB') as [_ [_ [(l0 & f & x & Q1 & _ & Q3 & _)|[_ Q2]]]].
      * rewrite Q1 in Fa. apply Forall_app in Fa as [_ Fa]. inversion Fa as [|? ? Z1 _]; subst. exact (Z1 x Q3).
      * rewrite Lo in Q2. contradiction.
Qed.
(* B receives the Close frame of A. *)
Lemma received_close lsA stA lsB stB : connected X cfgA extsA cfgB extsB lsA stA lsB stB ->
  okA lsA -> no_overlap X cfgB extsB lsB -> undisturbed X cfgB extsB lsB -> Forall short_reason lsB ->
  fine (p_out stA) ->
  flat_map o_bytes (p_out stA) = incoming lsB -> reading_idle X cfgB stB -> ~ last_is_ping stB -> ~ queue_full cfgB stB ->
  wrote_close stA ->
  wrote_close stB /\ finished stB /\ exists x code reason, In x (p_out stA) /\ close_frame (o_frame x) code reason /\ p_close stB = Some (code, reason).
Proof.
  intros C NA NB Un Sr Big Del [Nn Idle] Np Nq (x & Hx & Op).
  destruct (connected_runs _ _ _ _ _ _ _ _ _ _ C) as (HA & HB & TA & _).
  destruct (Inv_connected lsA stA lsB stB C NA NB Un Sr Big) as [I1 I2].
  destruct (reads_sent lsA stA lsB stB HA NA HB TA) as (later & Ef).
  destruct (Code_exec X cfgB extsB lsB stB HB) as [_ [C1 C2]].
  destruct (p_close stB) as [k|] eqn:Pc.
  - destruct (I2 ltac:(discriminate)) as [W Nf]. split; [exact W|].
    assert (Cg : closing_T (p_T stB)) by (destruct (p_T stB); try exact Logic.I; destruct (Nf (C1 (fun z => z)))).
    split.
    { unfold finished. destruct (p_T stB) as [|c|c|c|c|c|m w|e] eqn:HT; try contradiction; [| |now exists e].
      - exfalso. destruct (p_Tcancel stB) eqn:Tc.
        + specialize (Idle Go). cbn [step] in Idle. unfold step_T in Idle. rewrite HT, Tc in Idle. discriminate.
        + specialize (Idle DrainOk). cbn [step] in Idle. unfold step_T in Idle. rewrite HT, Tc in Idle. discriminate.
      - exfalso. exact (no_close_ensure X cfgB extsB lsB stB HB c HT). }
    destruct C2 as [(l0 & f & [code reason] & Q1 & _ & Q3 & Q4)|[Q1 _]]; [|contradiction].
    assert (Hf : In f (map o_frame (p_out stA))) by (rewrite Ef, Q1; apply in_or_app; left; apply in_or_app; right; now left).
    apply in_map_iff in Hf as (y & <- & Hy). exists y, code, reason. split; [exact Hy|]. split; [|exact Q4].
    apply close_frame_parses. exact Q3.
  - exfalso. destruct (I1 eq_refl) as [Iq Ij]. destruct Iq as [A B Eo D F G K U].
    pose proof (J_put _ _ Ij) as Pt.
    destruct (p_T stB) as [|c|c|c|c|c|m w|e] eqn:HT; try (destruct (D Logic.I)).
    + now contradiction Nn.
    + specialize (Idle Go). cbn [step] in Idle. unfold step_T in Idle. rewrite HT, A in Idle. unfold read_frame in Idle. rewrite B in Idle.
      destruct (run _ _ _) as [g r ex| |] eqn:Run; try discriminate.
      pose proof (reads_all lsA stA lsB stB c g r ex HA NA HB Del HT Eo Run) as Ea.
      specialize (C1 D). rewrite <- Ea, Forall_forall in C1.
      destruct (close_parses lsA stA x HA Hx Op) as (k & Pk).
      apply (C1 (o_frame x) (in_map _ _ _ Hx) k). now split.
    + specialize (Idle DrainOk). cbn [step] in Idle. unfold step_T in Idle. rewrite HT, A in Idle. discriminate.
    + apply Np, F. now exists c.
    + specialize (Idle Go). cbn [step] in Idle. unfold step_T in Idle. rewrite HT, A in Idle.
      destruct (Pt m w HT) as [[Z|[_ Z]]|[Z|[_ Z]]]; [unfold T_done in Z; now rewrite HT in Z|congruence| |contradiction].
      unfold done_fut in Z. rewrite Z in Idle. discriminate.
Qed.
End Pair.

Lemma ctrl_short f : is_ctrl (f_opcode f) = true -> check f = Ok tt -> lenN (f_data f) <= 125.
Proof.
  intros Ic. unfold check. rewrite Ic. destruct (_ || _); [discriminate|].
  destruct (N.ltb_spec 125 (lenN (f_data f))); [discriminate|auto].
Qed.
Lemma no_ext_control : accepts_control no_ext.
Proof. intros []. Qed.

Section Plain.
Context (cfgA cfgB : config).
Hypothesis Hc : c_client cfgB = negb (c_client cfgA).
Hypothesis KA : forall n, length (c_key cfgA n) = 4%nat.
(* What remains to be read *)
Lemma remaining_frames lsA (stA : conn Empty_set) lsB (stB : conn Empty_set) :
  execution no_ext cfgA [] lsA stA -> execution no_ext cfgB [] lsB stB -> in_transit (p_out stA) (incoming lsB) ->
  exists unread later wl fl,
    flat_map o_bytes (p_out stA) = incoming lsB ++ fl /\
    map o_frame (p_out stA) = p_in stB ++ later /\ Forall2 (framed (c_client cfgA)) later wl /\ concat wl = unread ++ fl /\
    Forall (fun f => check f = Ok tt) later /\ (T_done stB = false -> unread = r_buffer (p_reader stB)).
Proof.
  intros HA HB (fl & Hb).
  assert (No : forall l : list Empty_set, l = []) by (intros [|[] ?]; reflexivity).
  destruct (Wire_exec no_ext cfgB [] lsB stB No HB) as (wires & unread & W1 & W2 & W3).
  destruct (frames_remain (c_client cfgA) (map o_frame (p_out stA)) (map o_bytes (p_out stA)) (p_in stB) wires
     (unread ++ fl)) as (later & wl & Ef & Fl & Cl).
  { exact (written_framed no_ext cfgA No KA [] lsA stA HA). }
  { clear - W2 Hc. induction W2 as [|f w fs ws (key & L & _ & M) _ IH]; constructor; [|exact IH].
    exists key. split; [exact L|]. rewrite M, Hc. apply Bool.negb_involutive. }
  { rewrite <- flat_map_concat_map, Hb. change (incoming lsB) with (LegacyWire.received lsB).
    rewrite W1, <- app_assoc. reflexivity. }
  exists unread, later, wl, fl. split; [exact Hb|]. split; [exact Ef|]. split; [exact Fl|]. split; [exact Cl|]. split; [|exact W3].
  pose proof (written_checked no_ext cfgA [] lsA stA HA) as Ck.
  assert (Ck' : Forall (fun f => check f = Ok tt) (p_in stB ++ later)) by (rewrite <- Ef; now apply Forall_map).
  now apply Forall_app in Ck' as [_ Ck'].
Qed.
Lemma harmless_plain lsA (stA : conn Empty_set) lsB (stB : conn Empty_set) :
  execution no_ext cfgA [] lsA stA -> no_overlap no_ext cfgA [] lsA ->
  execution no_ext cfgB [] lsB stB -> in_transit (p_out stA) (incoming lsB) ->
  (forall max, c_max_size cfgB = Some max -> ~ too_big max (map o_frame (p_out stA))) ->
  r_eof (p_reader stB) = false -> harmless no_ext cfgB stB.
Proof.
  intros HA N HB Tr Big Eo c HT.
  assert (No : forall l : list Empty_set, l = []) by (intros [|[] ?]; reflexivity).
  destruct (Recv_exec no_ext cfgB [] lsB stB HB) as [_ (_ & _ & (done & rest & D1 & D2 & _ & D4) & _)].
  rewrite HT in D4. cbn [tail] in D4.
  destruct (remaining_frames lsA stA lsB stB HA HB Tr) as (unread & later & wl & fl & _ & Ef & Fl & Cl & Ck' & W3).
  assert (unread = r_buffer (p_reader stB)) as -> by (apply W3; unfold T_done; now rewrite HT).
  assert (Mk : negb (c_client cfgB) = c_client cfgA) by (rewrite Hc; apply Bool.negb_involutive).
  destruct (read_next no_ext (c_client cfgA) (read_limit cfgB c) _ (r_eof (p_reader stB)) fl wl later Fl Cl Ck') as [R1 _].
  destruct (read_flowing no_ext (c_client cfgA) (read_limit cfgB c) _ fl wl later Fl Cl Ck') as [R2 _].
  rewrite Mk, (No (p_exts stB)). destruct (p_reader stB) as [buf eof]. cbn [r_buffer r_eof] in *. subst eof.
  split.
  - intros e r ex Run. destruct (R2 e r ex Run) as (f & later' & -> & Nf).
    rewrite (context_limit cfgB c rest D4) in Nf. unfold remaining in Nf.
    destruct (c_max_size cfgB) as [max|] eqn:Ms; [|destruct (Nf Logic.I)]. apply (Big max eq_refl).
    exists (p_in stB), f, later', done, rest. split; [exact Ef|]. split.
    + split; [exact D1|]. split; [revert D2; apply Forall_impl; tauto|exact (context_begun cfgB c rest D4)].
    + unfold fits in Nf. lia.
  - intros f r ex Run. destruct (R1 f r ex Run) as (later' & ->).
    assert (Hf : In f (map o_frame (p_out stA))) by (rewrite Ef; apply in_or_app; right; now left).
    inversion Ck' as [|? ? Cf _]; subst.
    split; [|split].
    + intros Op. split; [apply ctrl_short; [now rewrite Op|exact Cf]|]. apply in_map_iff in Hf as (x & <- & Hx).
      exact (close_parses no_ext [] cfgA lsA stA x HA Hx Op).
    + intros Op. apply ctrl_short; [now rewrite Op|exact Cf].
    + intros Dt e Rm.
      destruct (sent_messages no_ext cfgA [] lsA stA HA N) as (dA & cur & S1 & S2 & S3 & S4).
      rewrite Ef in S1. unfold data_frames in S1, D1. rewrite filter_app, D1, <- app_assoc in S1. cbn [filter] in S1. rewrite Dt in S1.
      assert (D2' : Forall complete_message done) by (revert D2; apply Forall_impl; tauto).
      destruct (next_in_message done rest f _ dA cur D2' S2 S3 S4 (context_begun cfgB c rest D4) S1) as (post & Om).
      exact (reads_message cfgB c rest f post e D4 Om Rm).
Qed.

Lemma all_plain lsA (stA : conn Empty_set) lsB (stB : conn Empty_set) c g r ex :
  execution no_ext cfgA [] lsA stA -> execution no_ext cfgB [] lsB stB -> flat_map o_bytes (p_out stA) = incoming lsB ->
  p_T stB = TRead c -> r_eof (p_reader stB) = false ->
  run (legacy_read no_ext (negb (c_client cfgB)) (read_limit cfgB c)) (p_reader stB) (p_exts stB) = OSusp g r ex ->
  map o_frame (p_out stA) = p_in stB.
Proof.
  intros HA HB Del HT Eo Run.
  destruct (remaining_frames lsA stA lsB stB HA HB) as (unread & later & wl & fl & Hfl & Ef & Fl & Cl & Ck & W3).
  { exists []. now rewrite app_nil_r. }
  assert (fl = []) as ->.
  { rewrite Del in Hfl. rewrite <- (app_nil_r (incoming lsB)) in Hfl at 1. now apply app_inv_head in Hfl. }
  rewrite W3 in Cl by (unfold T_done; now rewrite HT).
  assert (Mk : negb (c_client cfgB) = c_client cfgA) by (rewrite Hc; apply Bool.negb_involutive).
  assert (No : forall l : list Empty_set, l = []) by (intros [|[] ?]; reflexivity).
  destruct (read_flowing no_ext (c_client cfgA) (read_limit cfgB c) _ [] wl later Fl Cl Ck) as [_ R].
  rewrite Mk, (No (p_exts stB)) in Run. destruct (p_reader stB) as [buf eof]. cbn [r_buffer r_eof] in *. subst eof.
  specialize (R g r ex eq_refl Run). subst later. now rewrite app_nil_r in Ef.
Qed.
Hypothesis KB : forall n, length (c_key cfgB n) = 4%nat.
Hypothesis Timeout : exists t, c_close_timeout cfgB = Some t /\ 0 < t.
Lemma received_close_plain lsA stA lsB stB : connected no_ext cfgA [] cfgB [] lsA stA lsB stB ->
  no_overlap no_ext cfgA [] lsA -> no_overlap no_ext cfgB [] lsB -> undisturbed no_ext cfgB [] lsB -> Forall short_reason lsB ->
  (forall max, c_max_size cfgB = Some max -> ~ too_big max (map o_frame (p_out stA))) ->
  flat_map o_bytes (p_out stA) = incoming lsB -> reading_idle no_ext cfgB stB -> ~ last_is_ping stB -> ~ queue_full cfgB stB ->
  wrote_close stA ->
  wrote_close stB /\ finished stB /\ exists x code reason, In x (p_out stA) /\ close_frame (o_frame x) code reason /\ p_close stB = Some (code, reason).
Proof.
  apply (received_close no_ext [] [] no_ext_control cfgA cfgB KB (no_overlap no_ext cfgA [])
    (fun out => forall max, c_max_size cfgB = Some max -> ~ too_big max (map o_frame out))); [| | | | |exact Timeout].
  - intros ls l. apply no_overlap_prefix.
  - intros l l' Big max Ms Tb. apply (Big max Ms). rewrite map_app. now apply too_big_more.
  - intros a sa b_ sb HA _ HB T. destruct (remaining_frames a sa b_ sb HA HB T) as (? & later & ? & ? & _ & Ef & _). now exists later.
  - intros a sa b_ sb HA N HB T. now apply (harmless_plain a sa b_ sb).
  - intros a sa b_ sb c g r ex HA _. now apply (all_plain a sa b_ sb c g r ex).
Qed.
End Plain.

(* One end of the connection, with the frames that the other end writes: close() has a timeout, no
   fragmented messages overlap (C60), nothing disturbs the closing handshake, and the other end doesn't
   send messages that are too big. *)
Definition regular (cfg : config) (ls : list label) (written : list frame) : Prop :=
  (forall n, length (c_key cfg n) = 4%nat) /\ (exists t, c_close_timeout cfg = Some t /\ 0 < t) /\
  no_overlap no_ext cfg [] ls /\ undisturbed no_ext cfg [] ls /\ Forall short_reason ls /\
  (forall max, c_max_size cfg = Some max -> ~ too_big max written).

(* When one end has sent a Close frame, all data has been delivered and both ends have nothing left to
   read, then the closing handshake is complete: no timeout is needed.  This requires that the queues of
   messages aren't full and that the last frame received isn't a ping. *)
Theorem C88_handshake_completes_partial :
  forall cfgA cfgB lsA stA lsB stB,
    c_client cfgB = negb (c_client cfgA) ->
    connected no_ext cfgA [] cfgB [] lsA stA lsB stB ->
    regular cfgA lsA (map o_frame (p_out stB)) -> regular cfgB lsB (map o_frame (p_out stA)) ->
    flat_map o_bytes (p_out stA) = incoming lsB -> flat_map o_bytes (p_out stB) = incoming lsA ->
    reading_idle no_ext cfgA stA -> reading_idle no_ext cfgB stB ->
    ~ queue_full cfgA stA -> ~ queue_full cfgB stB -> ~ last_is_ping stA -> ~ last_is_ping stB ->
    wrote_close stA \/ wrote_close stB ->
    finished stA /\ finished stB /\ close_received stA stB /\ close_received stB stA.
Proof.
  intros cfgA cfgB lsA stA lsB stB Hc C (KA & TA & NA & UA & SA & BA) (KB & TB & NB & UB & SB & BB) DA DB IA IB FA FB PA PB W.
  assert (Hc' : c_client cfgA = negb (c_client cfgB)) by now rewrite Hc, Bool.negb_involutive.
  pose proof (C86_symmetric _ _ _ _ _ _ _ _ _ _ C) as C'.
  pose proof (received_close_plain cfgA cfgB Hc KA KB TB lsA stA lsB stB C NA NB UB SB BB DA IB PB FB) as RB.
  pose proof (received_close_plain cfgB cfgA Hc' KB KA TA lsB stB lsA stA C' NB NA UA SA BA DB IA PA FA) as RA.
  assert (WB : wrote_close stB) by (destruct W as [W|W]; [apply RB, W|exact W]).
  destruct (RA WB) as (WA & FnA & RA'). destruct (RB WA) as (_ & FnB & RB').
  split; [exact FnA|]. split; [exact FnB|]. split; assumption.
Qed.

(* To show that executions meet the hypotheses *)
Definition disturbs_b {E} (X : ext_ops E) (cfg : config) (st : conn E) (l : label) : bool :=
  match l with
  | LFail _ | LEof | LLost _ _ | LK Timeout | LUser _ Timeout | LCancel _ => true
  | LUser i _ =>
      match step X cfg st l with
      | Some st' => match nth_error (p_users st') i with Some (UDone (RRaise _), _) => true | _ => false end
      | None => false
      end
  | _ => false
  end.
Fixpoint undisturbed_b {E} (X : ext_ops E) (cfg : config) (st : conn E) (ls : list label) : bool :=
  match ls with
  | [] => true
  | l :: ls =>
      match p_close st with None => negb (disturbs_b X cfg st l) | Some _ => true end &&
      match step X cfg st l with Some st' => undisturbed_b X cfg st' ls | None => true end
  end.
Lemma undisturbed_check {E} (X : ext_ops E) cfg exts ls : undisturbed_b X cfg (initial exts) ls = true -> undisturbed X cfg exts ls.
Proof.
  unfold undisturbed. generalize (initial exts). intros st0 H before l after st ->.
  change (exec X cfg st0 before = Some st -> p_close st = None -> ~ disturbs X cfg ([] ++ before) st l).
  generalize (@nil label) as done. revert st0 H. induction before as [|l0 before IH]; cbn [app undisturbed_b exec]; intros st0 H done He Pc;
    apply andb_prop in H as [H1 H2].
  - apply some_inj in He as <-. rewrite Pc in H1. apply Bool.negb_true_iff in H1. intros D.
    destruct l; cbn [disturbs disturbs_b] in *; try discriminate; try contradiction; destruct a; try discriminate; try contradiction;
      destruct D as (st' & m & e & S & _ & U); cbn [step] in S; cbn [step] in H1; rewrite S, U in H1; discriminate.
  - destruct (step X cfg st0 l0) as [st1|]; [|discriminate].
    replace (done ++ l0 :: before) with ((done ++ [l0]) ++ before) by now rewrite <- app_assoc. eauto.
Qed.
Lemma small_enough max written : (Z.of_nat (message_size written) <= max)%Z -> ~ too_big max written.
Proof.
  intros L (before & f & later & done & rest & -> & (D & _) & G).
  assert (S : forall l l', message_size (l ++ l') = (message_size l + message_size l')%nat).
  { intros l l'. unfold message_size. now rewrite flat_map_app, app_length. }
  assert (F : forall l, (message_size (data_frames l) <= message_size l)%nat).
  { intros l. induction l as [|g l IH]; [apply le_n|]. unfold data_frames in *. cbn [filter].
    change (g :: l) with ([g] ++ l). destruct (is_data_b g).
    - change (g :: filter is_data_b l) with ([g] ++ filter is_data_b l). rewrite !S. lia.
    - rewrite S. lia. }
  pose proof (F before) as Fb. rewrite D, S in Fb. change (f :: later) with ([f] ++ later) in L. rewrite !S in L.
  assert (message_size [f] = length (f_data f)) as Sf by (unfold message_size; cbn [flat_map]; now rewrite app_nil_r).
  lia.
Qed.

Definition delivered_b {E} (lsA : list label) (stA : conn E) (lsB : list label) (stB : conn E) : bool :=
  bytes_eqb (flat_map o_bytes (p_out stA)) (incoming lsB) && bytes_eqb (flat_map o_bytes (p_out stB)) (incoming lsA).
Definition idle_b {E} (st : conn E) : bool :=
  match p_T st, p_Tcancel st, p_C st with TDone _, _, _ | TPongEnsure _, false, CWaitT => true | _, _, _ => false end.
Lemma idle_check {E} (X : ext_ops E) cfg st : idle_b st = true -> reading_idle X cfg st.
Proof.
  unfold idle_b, reading_idle. cbn [step]. unfold step_T, ensure_open_end.
  destruct (p_T st); try discriminate; (split; [discriminate|]); [|reflexivity].
  destruct (p_Tcancel st); try discriminate. destruct (p_C st); try discriminate. intros []; reflexivity.
Qed.
Definition no_queue_b {E} (st : conn E) : bool := match p_messages st with [] => true | _ => false end.
Lemma no_queue_check {E} cfg (st : conn E) : c_max_queue cfg = Some 1 -> no_queue_b st = true -> ~ queue_full cfg st.
Proof.
  unfold no_queue_b, queue_full. intros -> H (n & Z & L). injection Z as <-. destruct (p_messages st); [|discriminate].
  change (1 <= 0) in L. lia.
Qed.
Definition ping_b {E} (st : conn E) : bool :=
  match rev (p_in st) with f :: _ => match f_opcode f with PING => true | _ => false end | [] => false end.
Lemma ping_check {E} (st : conn E) : ping_b st = false -> ~ last_is_ping st.
Proof.
  unfold ping_b. intros H (before & f & Hi & Op). rewrite Hi, rev_app_distr in H. cbn [rev app] in H. rewrite Op in H. discriminate.
Qed.
Definition closed_b {E} (st : conn E) : bool :=
  existsb (fun x => match f_opcode (o_frame x) with CLOSE => true | _ => false end) (p_out st).
Lemma closed_check {E} (st : conn E) : closed_b st = true -> wrote_close st.
Proof.
  intros H. apply existsb_exists in H as (x & Hx & H). exists x. split; [exact Hx|]. now destruct (f_opcode (o_frame x)).
Qed.
Definition small_b {E} (st : conn E) : bool := (Z.of_nat (message_size (map o_frame (p_out st))) <=? 100)%Z.
Lemma regular_check cfg ls (st : conn Empty_set) : c_key cfg = (fun _ => bs [1; 2; 3; 4]) -> c_close_timeout cfg = Some 10 -> c_max_size cfg = Some 100%Z ->
  small_b st = true -> no_overlap no_ext cfg [] ls -> undisturbed no_ext cfg [] ls -> Forall short_reason ls ->
  regular cfg ls (map o_frame (p_out st)).
Proof.
  intros K T M Sm N U Sr. split; [now rewrite K|]. split; [exists 10; now rewrite T|]. split; [exact N|]. split; [exact U|].
  split; [exact Sr|]. rewrite M. intros max Z. injection Z as <-. apply small_enough, Z.leb_le, Sm.
Qed.
Definition meets_b {E} (lsA lsB : list label) (stA stB : conn E) : bool :=
  small_b stA && small_b stB && delivered_b lsA stA lsB stB && idle_b stA && idle_b stB && no_queue_b stA && no_queue_b stB && closed_b stA.
Lemma short_all ls : forallb (fun l => match l with
    | LCall (CallClose _ r) => match utf8_encode r with Ok x => lenN x <=? 123 | _ => true end | _ => true end) ls = true ->
  Forall short_reason ls.
Proof.
  intros H. apply Forall_forall. intros l Hl. rewrite forallb_forall in H. specialize (H l Hl).
  intros code reason data -> U. rewrite U in H. now apply N.leb_le in H.
Qed.

(* The client sends "hi" and calls close(1000, "bye"); the server reads the message and answers. *)
Definition ex_client_side : list label :=
  [LOpen; LC Go; LCall (CallSend (SData (PStr (s "hi")))); LUser 0 Go; LUser 0 DrainOk; LCall (CallClose 1000 (s "bye")); LUser 1 Go].
Definition ex_handshake : list (bool * label) :=
  map (pair true) ex_client_side ++
  map (pair false) [LOpen; LC Go; LData (ex_wire ex_client_side); LT Go; LCall CallRecv; LUser 0 Go; LT Go; LT DrainOk] ++
  map (pair true) [LData (bs [136; 5; 3; 232] ++ b "bye"); LT Go].
Definition applies_b {E} (lsA lsB : list label) (stA stB : conn E) : bool :=
  meets_b lsA lsB stA stB && negb (ping_b stA) && negb (ping_b stB).
Example C88_applies :
  exists stA stB, connected no_ext ex_config [] ex_server [] (side true ex_handshake) stA (side false ex_handshake) stB /\
    regular ex_config (side true ex_handshake) (map o_frame (p_out stB)) /\
    regular ex_server (side false ex_handshake) (map o_frame (p_out stA)) /\
    flat_map o_bytes (p_out stA) = incoming (side false ex_handshake) /\ flat_map o_bytes (p_out stB) = incoming (side true ex_handshake) /\
    reading_idle no_ext ex_config stA /\ reading_idle no_ext ex_server stB /\
    ~ queue_full ex_config stA /\ ~ queue_full ex_server stB /\ ~ last_is_ping stA /\ ~ last_is_ping stB /\ wrote_close stA.
Proof.
  assert (W : exists stA stB, connected no_ext ex_config [] ex_server [] (side true ex_handshake) stA (side false ex_handshake) stB /\
    applies_b (side true ex_handshake) (side false ex_handshake) stA stB = true).
  { apply (by_connection _ _ _ _ _ _ ex_handshake (applies_b (side true ex_handshake) (side false ex_handshake))). vm_compute. reflexivity. }
  destruct W as (stA & stB & C & H). exists stA, stB. unfold applies_b, meets_b, delivered_b in H.
  repeat (apply andb_prop in H as [H ?]). 
  repeat match goal with Z : _ && _ = true |- _ => apply andb_prop in Z as [? ?] | Z : negb _ = true |- _ => apply Bool.negb_true_iff in Z
    | Z : bytes_eqb _ _ = true |- _ => apply bytes_eqb_eq in Z end.
  split; [exact C|].
  split; [apply regular_check; try reflexivity; [assumption|apply no_overlap_check; vm_compute; reflexivity
    |apply undisturbed_check; vm_compute; reflexivity|apply short_all; vm_compute; reflexivity]|].
  split; [apply regular_check; try reflexivity; [assumption|apply no_overlap_check; vm_compute; reflexivity
    |apply undisturbed_check; vm_compute; reflexivity|apply short_all; vm_compute; reflexivity]|].
  split; [assumption|]. split; [assumption|]. split; [now apply idle_check|]. split; [now apply idle_check|].
  split; [now apply no_queue_check|]. split; [now apply no_queue_check|]. split; [now apply ping_check|]. split; [now apply ping_check|].
  now apply closed_check.
Qed.

(* If the last frame that an end received is a ping, the closing handshake may not complete: the client
   calls ping() and close(), the server calls close() before it receives the ping; it waits for a timeout. *)
Definition ex_pinging : list label :=
  [LOpen; LC Go; LCall (CallPing (Some (PBytes (b "x")))); LUser 0 (GoRand []); LUser 0 DrainOk; LCall (CallClose 1000 (s "bye")); LUser 1 Go].
Definition ex_ping_close : list (bool * label) :=
  map (pair true) ex_pinging ++
  map (pair false) [LOpen; LC Go; LCall (CallClose 1000 (s "bye")); LUser 0 Go; LData (ex_wire ex_pinging); LT Go] ++
  map (pair true) [LData (bs [136; 5; 3; 232] ++ b "bye"); LT Go].
Definition stuck_b (lsA lsB : list label) (stA stB : conn Empty_set) : bool :=
  meets_b lsA lsB stA stB && match p_close stB with None => true | Some _ => false end.
Theorem C88_ping_refuted :
  ~ (forall cfgA cfgB lsA stA lsB stB,
    c_client cfgB = negb (c_client cfgA) ->
    connected no_ext cfgA [] cfgB [] lsA stA lsB stB ->
    regular cfgA lsA (map o_frame (p_out stB)) -> regular cfgB lsB (map o_frame (p_out stA)) ->
    flat_map o_bytes (p_out stA) = incoming lsB -> flat_map o_bytes (p_out stB) = incoming lsA ->
    reading_idle no_ext cfgA stA -> reading_idle no_ext cfgB stB ->
    ~ queue_full cfgA stA -> ~ queue_full cfgB stB ->
    wrote_close stA \/ wrote_close stB -> p_close stB <> None).
Proof.
  intros F.
  assert (W : exists stA stB, connected no_ext ex_config [] ex_server [] (side true ex_ping_close) stA (side false ex_ping_close) stB /\
    stuck_b (side true ex_ping_close) (side false ex_ping_close) stA stB = true).
  { apply (by_connection _ _ _ _ _ _ ex_ping_close (stuck_b (side true ex_ping_close) (side false ex_ping_close))). vm_compute. reflexivity. }
  destruct W as (stA & stB & C & H). unfold stuck_b, meets_b, delivered_b in H.
  repeat (apply andb_prop in H as [H ?]).
  repeat match goal with Z : _ && _ = true |- _ => apply andb_prop in Z as [? ?]
    | Z : bytes_eqb _ _ = true |- _ => apply bytes_eqb_eq in Z end.
  refine (F ex_config ex_server _ stA _ stB eq_refl C _ _ _ _ _ _ _ _ _ _).
  - apply regular_check; try reflexivity; [assumption|apply no_overlap_check; vm_compute; reflexivity
    |apply undisturbed_check; vm_compute; reflexivity|apply short_all; vm_compute; reflexivity].
  - apply regular_check; try reflexivity; [assumption|apply no_overlap_check; vm_compute; reflexivity
    |apply undisturbed_check; vm_compute; reflexivity|apply short_all; vm_compute; reflexivity].
  - assumption.
  - assumption.
  - now apply idle_check.
  - now apply idle_check.
  - now apply no_queue_check.
  - now apply no_queue_check.
  - left. now apply closed_check.
  - now destruct (p_close stB).
Qed.

Print Assumptions C88_handshake_completes_partial.
Print Assumptions C88_ping_refuted.
