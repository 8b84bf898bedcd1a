(* Invariants of "async for message in websocket". *)
From Verif Require Import Base.Prelude Base.PreludeFacts Model.Streams Model.Frames
  Model.LegacyFraming Model.LegacyProtocol Model.LegacyIter Spec.Messages Spec.Asyncio Spec.AsyncioIter
  Proofs.LegacyPrims Proofs.LegacyFields Proofs.LegacyShapes Proofs.LegacyUsers Proofs.LegacyClose
  Proofs.LegacyQueue Proofs.LegacyMessages Proofs.LegacyRecv Proofs.LegacySend
  Properties.AsyncioState Properties.AsyncioClosing.
Local Open Scope N_scope.

Section Facts.
Context {E : Type} (X : ext_ops E) (cfg : config).
Implicit Types (st : conn E) (g : iteration E).

Definition receiving (pc : upc) : Prop := pc = UStart CallRecv \/ exists w, pc = URecvWait w.

Lemma no_recv_receiving pc : no_recv pc -> ~ receiving pc.
Proof. intros H [-> |(w & ->)]; exact H. Qed.

(* A step other than one of a call to recv() *)
Lemma quiet_step st l st' : Base st -> Recv cfg st -> step X cfg st l = Some st' ->
  (forall i a pc c, l = LUser i a -> nth_error (p_users st) i = Some (pc, c) -> ~ receiving pc) ->
  p_delivered st' = p_delivered st /\ (p_messages st' = p_messages st \/ exists a, l = LT a) /\
  (forall j pc c, nth_error (p_users st') j = Some (pc, c) -> receiving pc ->
     (exists c', nth_error (p_users st) j = Some (pc, c')) \/ (l = LCall CallRecv /\ j = length (p_users st))).
Proof.
  intros B R H N.
  assert (G : p_users st' = p_users st -> p_delivered st' = p_delivered st -> (p_messages st' = p_messages st \/ exists a, l = LT a) ->
    p_delivered st' = p_delivered st /\ (p_messages st' = p_messages st \/ exists a, l = LT a) /\
    (forall j pc c, nth_error (p_users st') j = Some (pc, c) -> receiving pc ->
     (exists c', nth_error (p_users st) j = Some (pc, c')) \/ (l = LCall CallRecv /\ j = length (p_users st)))).
  { intros -> -> Q. split; [reflexivity|]. split; [exact Q|]. intros j pc c Hj _. left. eauto. }
  destruct l; cbn [step] in H.
  - destruct (p_state st); try discriminate. destruct (p_C st); try discriminate. apply some_inj in H as <-.
    apply G; [reflexivity|reflexivity|now left].
  - destruct (fail_connection _ _ _ _) as [st2 e2] eqn:F. apply some_inj in H as <-. shapes.
    apply G; [reflexivity|reflexivity|now left].
  - destruct (r_eof _); [discriminate|]. apply some_inj in H as <-. apply G; [reflexivity|reflexivity|now left].
  - destruct (r_eof _); [discriminate|]. apply some_inj in H as <-. apply G; [reflexivity|reflexivity|now left].
  - destruct (p_state st); try discriminate; apply some_inj in H as <-;
      destruct (connection_lost_shape st o closing) as (? & ? & ? & ? & ? & Sh);
      revert G; rewrite Sh; intros G; (apply G; [reflexivity|reflexivity|now left]).
  - apply some_inj in H as <-. apply G; [reflexivity|reflexivity|now left].
  - apply some_inj in H as <-. apply G; [reflexivity|reflexivity|now left].
  - apply some_inj in H as <-. split; [reflexivity|]. split; [now left|]. cbn [p_users set_users]. intros j pc d Hj Hr.
    destruct (Nat.lt_ge_cases j (length (p_users st))) as [L|Ge].
    + rewrite nth_error_app1 in Hj by exact L. left. eauto.
    + rewrite nth_error_app2 in Hj by exact Ge. right.
      destruct (j - length (p_users st))%nat as [|[|n]] eqn:Ej; cbn [nth_error] in Hj; try discriminate.
      injection Hj as <- <-. destruct Hr as [Q|(w & Q)]; [|discriminate]. injection Q as ->. split; [reflexivity|lia].
  - destruct (nth_error _ _) as [[pc ?]|] eqn:Hi; [|discriminate].
    assert (H' : set_users (replace i (pc, true) (p_users st)) st = st') by (destruct pc; congruence).
    clear H. subst st'. split; [reflexivity|]. split; [now left|]. cbn [p_users set_users]. intros j pc' d Hj Hr. left.
    destruct (Nat.eq_dec i j) as [<- |Hn].
    + rewrite nth_error_replace_eq in Hj by (apply nth_error_Some; congruence). injection Hj as <- _. eauto.
    + rewrite nth_error_replace_neq in Hj by exact Hn. eauto.
  - destruct R as (R1 & R2 & R3 & R4). destruct (step_T_tq X cfg st a st' R1 R2 H) as (_ & (A2 & A3) & _).
    apply G; [exact A2|exact A3|right; eauto].
  - apply step_K_shape in H as (? & ? & ? & ? & ? & ? & ? & ? & ->). apply G; [reflexivity|reflexivity|now left].
  - apply step_C_shape in H as (? & ? & ? & ? & ? & ->). apply G; [reflexivity|reflexivity|now left].
  - destruct (step_user_sameq X cfg st i a st' H) as [((pc & U & Hp) & S1 & S2 & _)|(pc & c & Q1 & Q2)].
    + split; [exact S2|]. split; [now left|]. rewrite U. intros j pc' d Hj Hr. left.
      assert (L : (j < length (p_users st))%nat).
      { rewrite <- (length_replace i (pc, false)). apply nth_error_Some. congruence. }
      destruct (Nat.eq_dec i j) as [<- |Hn].
      * rewrite nth_error_replace_eq in Hj by exact L. injection Hj as <- _. now apply no_recv_receiving in Hr.
      * rewrite nth_error_replace_neq in Hj by exact Hn. eauto.
    + exfalso. now apply (N i a pc c).
Qed.

(* When data transfer has ended *)
Lemma T_done_settled st : T_done st = true <-> settled (p_T st).
Proof.
  unfold T_done, settled. split.
  - destruct (p_T st) as [| | | | | | |e]; try discriminate. intros _. now exists e.
  - now intros (e & ->).
Qed.
Lemma T_done_step st l st' : Base st -> step X cfg st l = Some st' -> T_done st = true ->
  p_T st' = p_T st /\ p_in st' = p_in st /\ (forall a, l <> LT a).
Proof.
  intros B H D. apply T_done_settled in D as (e & D).
  assert (N : forall a, l <> LT a).
  { intros a ->. cbn [step] in H. unfold step_T in H. rewrite D in H. destruct (p_Tcancel st); discriminate. }
  assert (N' : l <> LOpen).
  { intros ->. cbn [step] in H. destruct B as (_ & _ & _ & S0). destruct (p_state st) eqn:Es; try discriminate.
    apply S0; [congruence|exact Es]. }
  destruct (step_T_alone X cfg st l st' H N N') as [-> ->]. auto.
Qed.
Lemma lost_step st l st' : Base st -> step X cfg st l = Some st' -> p_lost st <> None -> p_lost st' <> None.
Proof.
  intros (_ & Lo & _) H Q. destruct (p_lost_step X cfg _ _ _ H) as [[-> _]|(o & c & _ & N)]; [exact Q|].
  apply Lo in Q. contradiction.
Qed.
Lemma close_step st l st' x : Base st -> Code st -> Code st' -> step X cfg st l = Some st' ->
  T_done st = true -> p_close st = Some x -> p_close st' = Some x.
Proof.
  intros B C C' H D Hx. destruct (T_done_step _ _ _ B H D) as (_ & Ei & _). pose proof (lost_step _ _ _ B H) as Lo.
  destruct C as [_ C], C' as [_ C']. rewrite Ei in C'.
  destruct C as [(k & f & y & C1 & C2 & C3 & C4)|[C1 C2]], C' as [(k' & f' & y' & D1 & D2 & D3 & D4)|[D1 D2]].
  - rewrite C1 in D1. apply app_inj_tail in D1 as [_ <-]. rewrite D4, <- Hx, C4. f_equal.
    unfold parses_close in *. destruct C3 as [_ C3], D3 as [_ D3]. congruence.
  - exfalso. rewrite C1 in D1. apply Forall_app in D1 as [_ D1]. apply Forall_inv in D1. now apply (D1 y).
  - exfalso. rewrite D1 in C1. apply Forall_app in C1 as [_ C1]. apply Forall_inv in C1. now apply (C1 y').
  - rewrite C2 in Hx. destruct (p_lost st) eqn:El; [|discriminate].
    rewrite D2. destruct (p_lost st'); [exact Hx|]. exfalso. now apply Lo.
Qed.
Lemma T_exists_step st l st' : Base st -> Recv cfg st -> step X cfg st l = Some st' -> T_exists st = true -> T_exists st' = true.
Proof.
  intros B (R1 & R2 & R3 & R4) H Ex.
  assert (D : (exists a, l = LT a) \/ forall a, l <> LT a) by (destruct l; eauto; right; discriminate).
  destruct D as [(a & ->)|N].
  - cbn [step] in H. destruct (step_T_tq X cfg st a st' R1 R2 H) as (A & _).
    unfold T_exists. destruct (p_T st') eqn:Et; try reflexivity. exfalso.
    destruct A as [[e Q] _ _|c _ Q _ _|m w _ Q _ _|m w w' _ Q _ _|c f _ _ _ [Q|[e Q]] _|c f c' _ _ _ _ Q _
                  |c f m _ _ _ _ _ [[Q _]|(w & Q & _)]|c f _ _ _ [e Q] _]; rewrite Et in Q; discriminate.
  - destruct (step_T_alone X cfg st l st' H N) as [Q _]; [|unfold T_exists in *; now rewrite Q].
    intros ->. cbn [step] in H. destruct B as (_ & _ & _ & S0). destruct (p_state st) eqn:Es; try discriminate.
    apply S0; [|exact Es]. unfold T_exists in Ex. intros Q. now rewrite Q in Ex.
Qed.

(* Only the current call receives messages. *)
Definition Sole (cur : option nat) st : Prop :=
  forall j pc c, nth_error (p_users st) j = Some (pc, c) -> receiving pc -> cur = Some j.
(* Data transfer has ended and all messages were received. *)
Definition drained st : Prop := T_done st = true /\ p_messages st = [].
Definition fate (ls : list glabel) st (e : pexn) : Prop :=
  (e = CancelledError /\ cancelled ls) \/
  (drained st /\
   ((exists code reason, p_close st = Some (code, reason) /\ connection_closed e code reason) \/
    (exists x, p_C st = CDone (Some x) /\ e = PyExn x) \/ (p_aborted st <> None /\ e = PyExn AttributeError))).
Definition taken st : list message := map snd (p_delivered st).
Definition call_at (ls : list glabel) st (ys : list message) (pc : upc) : Prop :=
  match pc with
  | UStart CallRecv | URecvWait _ => taken st = ys
  | UEnsure => taken st = ys /\ drained st
  | UDone (RMessage m) => taken st = ys ++ [m]
  | UDone (RRaise e) => taken st = ys /\ fate ls st e
  | _ => False
  end.
Definition iter_at (ls : list glabel) g (ys : list message) : Prop :=
  let st := g_conn g in
  match g_pc g with
  | GReady => taken st = ys
  | GRecv i => exists pc c, nth_error (p_users st) i = Some (pc, c) /\ (c = true -> cancelled ls) /\
                 T_exists st = true /\ call_at ls st ys pc
  | GReturned => taken st = ys /\ drained st /\ exists code reason, p_close st = Some (code, reason) /\ normal_code code
  | GRaised e => taken st = ys /\ fate ls st e /\ forall code reason, e <> ConnectionClosedOK code reason
  end.
Definition current (pc : gpc) : option nat := match pc with GRecv i => Some i | _ => None end.
Definition Sound st : Prop := Base st /\ Recv cfg st /\ Code st /\ Ended st /\ One st /\ Registered st.
Definition GInv (ls : list glabel) g : Prop :=
  Sound (g_conn g) /\ Sole (current (g_pc g)) (g_conn g) /\
  exists ys, g_yielded g = map Some ys /\ iter_at ls g ys.

Lemma Sound_step st l st' cur : Sound st -> Sole cur st -> step X cfg st l = Some st' -> Sound st'.
Proof.
  intros (B & R & C & En & O & Rg) So H.
  split; [exact (Base_step X cfg _ _ _ B H)|]. split; [exact (Recv_step X cfg _ _ _ B R H)|].
  split; [exact (Code_step X cfg _ _ _ B C H)|]. split; [now apply (step_ended X cfg _ _ _ B H)|].
  split; [|exact (Registered_step X cfg st l st' (proj1 R) Rg H)].
  apply (One_step X cfg st l st' (proj1 R) O); [|exact H].
  intros (i & a & c & j & w & _ & Hi & (c' & Hj) & _).
  pose proof (So i _ _ Hi (or_introl eq_refl)) as Q1. pose proof (So j _ _ Hj (or_intror (ex_intro _ w eq_refl))) as Q2.
  rewrite Q1 in Q2. injection Q2 as <-. rewrite Hi in Hj. discriminate.
Qed.
Lemma cancelled_app ls l : cancelled ls -> cancelled (ls ++ [l]).
Proof. intros (i & Q). exists i. apply in_app_iff. now left. Qed.
Lemma drained_step st l st' : Sound st -> step X cfg st l = Some st' ->
  (forall i a pc c, l = LUser i a -> nth_error (p_users st) i = Some (pc, c) -> ~ receiving pc) ->
  drained st -> drained st'.
Proof.
  intros (B & R & _) H N [D M]. destruct (T_done_step _ _ _ B H D) as (Q1 & _ & Q2).
  split; [unfold T_done in *; now rewrite Q1|]. destruct (quiet_step _ _ _ B R H N) as (_ & [Q|(a & Q)] & _); [congruence|].
  now apply Q2 in Q.
Qed.
Lemma fate_step ls x st l st' e : Sound st -> Sound st' -> step X cfg st l = Some st' ->
  (forall i a pc c, l = LUser i a -> nth_error (p_users st) i = Some (pc, c) -> ~ receiving pc) ->
  fate ls st e -> fate (ls ++ [x]) st' e.
Proof.
  intros S1 S2 H N [[-> F]|[D F]]; [left; split; [reflexivity|now apply cancelled_app]|right].
  split; [now apply (drained_step st l)|].
  assert (B : Base st) by apply S1. destruct (step_ended X cfg _ _ _ B H) as (E1 & E2 & _).
  destruct F as [(code & reason & F1 & F2)|[(y & F1 & F2)|[F1 F2]]].
  - left. exists code, reason. split; [|exact F2]. apply (close_step st l st'); try assumption; [apply S1|apply S2|apply D].
  - right. left. eauto.
  - right. right. auto.
Qed.

(* The state of a call that just ended *)
Lemma nth_set_user st i pc : (i < length (p_users st))%nat -> nth_error (p_users (set_user i pc st)) i = Some (pc, false).
Proof. intros L. unfold set_user. cbn [p_users set_users]. now apply nth_error_replace_eq. Qed.
Lemma Sole_replace cur st st' i pc : Sole cur st -> p_users st' = replace i (pc, false) (p_users st) ->
  (receiving pc -> cur = Some i) -> Sole cur st'.
Proof.
  intros So U Hp j pc' c Hj Hr. rewrite U in Hj.
  assert (L : (j < length (p_users st))%nat).
  { rewrite <- (length_replace i (pc, false)). apply nth_error_Some. congruence. }
  destruct (Nat.eq_dec i j) as [<- |Hn].
  - rewrite nth_error_replace_eq in Hj by exact L. injection Hj as <- _. auto.
  - rewrite nth_error_replace_neq in Hj by exact Hn. eauto.
Qed.

Lemma recv_loop_call ls st i ys : (i < length (p_users st))%nat -> Waiters st -> T_exists st = true -> taken st = ys ->
  exists pc, nth_error (p_users (recv_loop st i)) i = Some (pc, false) /\ call_at ls (recv_loop st i) ys pc /\
    p_users (recv_loop st i) = replace i (pc, false) (p_users st).
Proof.
  intros L [W _] Ex T. unfold recv_loop. destruct (p_messages st) as [|m rest] eqn:Em.
  - change (T_exists (set_pops _ st)) with (T_exists st). rewrite Ex. cbv zeta.
    exists (URecvWait (length (p_pops st))). split; [now apply nth_set_user|]. split; [exact T|reflexivity].
  - change (p_put (set_messages rest st)) with (p_put st). change (p_puts (set_messages rest st)) with (p_puts st). cbv zeta.
    destruct (p_put st) as [w|] eqn:Ep; [rewrite (set_result_pending _ _ (W w eq_refl))|];
      (exists (UDone (RMessage m)); split; [now apply nth_set_user|]; split; [|reflexivity];
       cbn [call_at]; unfold taken in *; cbn [p_delivered return_ set_user set_users set_delivered];
       rewrite map_app; cbn [map snd]; change (p_delivered (set_messages rest st)) with (p_delivered st); now rewrite T).
Qed.

(* The current call runs. *)
Lemma call_step ls st i a st' ys pc c : c_legacy_recv cfg = false ->
  Sound st -> Sole (Some i) st -> nth_error (p_users st) i = Some (pc, c) -> (c = true -> cancelled ls) ->
  T_exists st = true -> call_at ls st ys pc -> step X cfg st (LUser i a) = Some st' ->
  exists pc', nth_error (p_users st') i = Some (pc', false) /\ call_at ls st' ys pc' /\
    p_users st' = replace i (pc', false) (p_users st).
Proof.
  intros Leg (B & R & C & En & O & Rg) So Hi Hc Ex F H.
  assert (L : (i < length (p_users st))%nat) by (apply nth_error_Some; congruence).
  assert (Rs : forall s e, p_users s = p_users st -> taken s = ys -> fate ls (raise_ i e s) e -> st' = raise_ i e s ->
    exists pc', nth_error (p_users st') i = Some (pc', false) /\ call_at ls st' ys pc' /\
      p_users st' = replace i (pc', false) (p_users st)).
  { intros s e Us Ts Fe ->. exists (UDone (RRaise e)). unfold raise_, return_, set_user in *. cbn [p_users set_users].
    rewrite Us. split; [now apply nth_error_replace_eq|]. split; [|reflexivity]. split; [exact Ts|exact Fe]. }
  assert (Ca : c = true -> forall s e, e = CancelledError -> fate ls (raise_ i e s) e).
  { intros -> s e ->. left. split; [reflexivity|now apply Hc]. }
  assert (Cl : forall s, p_close s = p_close st -> T_done s = T_done st -> p_messages s = p_messages st -> p_aborted s = p_aborted st ->
    drained st -> (p_lost st <> None \/ p_aborted st <> None) ->
    fate ls (raise_ i (connection_closed_exc s) s) (connection_closed_exc s)).
  { intros s A1 A2 A3 A4 [D1 D2] Q. right. split; [split; [rewrite <- D1, <- A2; reflexivity|rewrite <- D2, <- A3; reflexivity]|].
    destruct (p_close st) as [[code reason]|] eqn:Ec.
    - left. exists code, reason. split; [exact A1|]. apply connection_closed_exc_spec. exact A1.
    - right. right. unfold connection_closed_exc. rewrite A1. split; [|reflexivity]. change (p_aborted (raise_ i (PyExn AttributeError) s)) with (p_aborted s).
      rewrite A4. destruct C as (_ & [(? & ? & ? & _ & _ & _ & C)|[_ C]]); [congruence|].
      destruct Q as [Q|Q]; [|exact Q]. destruct (p_lost st); congruence. }
  cbn [step] in H. destruct pc as [c0|w| | | | | | | | | | | | | | |r]; try contradiction; cbn [call_at] in F.
  - destruct c0; try contradiction.
    destruct (step_user_start X cfg st i a st' c (proj1 R) Hi H) as (-> & [(-> & Q)|[(-> & Q & _)|(-> & Hp & _ & Q)]]).
    + apply (Rs st CancelledError); auto.
    + exfalso. destruct (p_pop st) as [w|] eqn:Ep; [|congruence]. destruct (Rg w Ep) as (j & c' & Hj).
      pose proof (So j _ _ Hj (or_intror (ex_intro _ w eq_refl))) as Q'. injection Q' as <-. congruence.
    + subst st'. apply recv_loop_call; try assumption. apply R.
  - assert (Wt : waiting st i w) by now exists c.
    unfold step_user in H. rewrite Hi in H. destruct c.
    + destruct a; try discriminate. apply some_inj in H. cbn [cancel_call] in H.
      apply (Rs (set_pop None st) CancelledError); auto.
    + unfold step_call in H. destruct a; try discriminate. destruct (_ || _) eqn:Eo; [|discriminate].
      apply some_inj in H. unfold recv_resume in H. cbv zeta in H. change (p_pops (set_pop None st)) with (p_pops st) in H.
      assert (W' : Waiters (set_pop None st)) by (split; [apply R|discriminate]).
      destruct (fut_done (get_fut (p_pops st) w)) eqn:Ef.
      * subst st'. destruct (recv_loop_call ls (set_pop None st) i ys L W' Ex F) as (pc' & Q). exists pc'. exact Q.
      * rewrite Leg in H. cbn [orb] in Eo.
        assert (D : drained st).
        { split; [exact Eo|]. destruct (proj2 O i w Wt) as [(_ & _ & Q)|(_ & Q & _)]; [exact Q|].
          unfold succeeded in Q. unfold get_fut in Ef. rewrite (nth_error_nth _ _ _ Q) in Ef. discriminate. }
        unfold ensure_open in H. change (p_state (set_pop None st)) with (p_state st) in H.
        change (T_done (set_pop None st)) with (T_done st) in H. rewrite Eo in H.
        assert (Wa : st' = set_user i UEnsure (set_pop None st) ->
          exists pc', nth_error (p_users st') i = Some (pc', false) /\ call_at ls st' ys pc' /\ p_users st' = replace i (pc', false) (p_users st)).
        { intros ->. exists UEnsure. split; [now apply nth_set_user|]. split; [|reflexivity]. split; [exact F|exact D]. }
        destruct (p_state st) eqn:Es; try (apply Wa; now symmetry).
        -- exfalso. destruct B as (_ & _ & _ & S0). apply S0; [|exact Es]. intros Q. unfold T_done in Eo. now rewrite Q in Eo.
        -- apply (Rs (set_pop None st) (connection_closed_exc (set_pop None st))); [reflexivity|exact F| |now symmetry].
           apply Cl; try reflexivity; [exact D|]. left. now apply B.
  - destruct F as [F D]. unfold step_user in H. rewrite Hi in H. destruct c.
    + destruct a; try discriminate. apply some_inj in H. cbn [cancel_call] in H. apply (Rs st CancelledError); auto.
    + unfold step_call in H. destruct a; try discriminate. unfold ensure_open_end in H. unfold Ended in En.
      destruct (p_C st) as [| | | | | | |[x|]] eqn:HC; try discriminate; apply some_inj in H.
      * apply (Rs st (PyExn x)); [reflexivity|exact F| |now symmetry]. right. split; [exact D|]. right. left. exists x. now split.
      * apply (Rs st (connection_closed_exc st)); [reflexivity|exact F| |now symmetry]. apply Cl; try reflexivity; assumption.
  - unfold step_user in H. rewrite Hi in H. destruct c; discriminate.
Qed.

Lemma gstep_inv ls g l g' : c_legacy_recv cfg = false -> l <> GConn (LCall CallRecv) ->
  GInv ls g -> gstep X cfg g l = Some g' -> GInv (ls ++ [l]) g'.
Proof.
  intros Leg Hl (S0 & So & ys & Y & I) H. destruct l as [l| |]; cbn [gstep] in H.
  - destruct (step X cfg (g_conn g) l) as [st'|] eqn:St; [|discriminate]. apply some_inj in H as <-.
    set (st := g_conn g) in *. unfold GInv. cbn [g_conn g_pc g_yielded].
    assert (S1 : Sound st') by exact (Sound_step _ _ _ _ S0 So St).
    split; [exact S1|]. unfold iter_at in *. cbn [g_conn g_pc g_yielded]. fold st in I.
    assert (B : Base st) by apply S0. assert (R : Recv cfg st) by apply S0.
    assert (Q : (forall i a pc c, l = LUser i a -> nth_error (p_users st) i = Some (pc, c) -> ~ receiving pc) ->
      Sole (current (g_pc g)) st' /\ taken st' = taken st).
    { intros N. destruct (quiet_step _ _ _ B R St N) as (Q1 & Q2 & Q3). split; [|unfold taken; now rewrite Q1].
      intros j pc c Hj Hr. destruct (Q3 j pc c Hj Hr) as [(c' & Hj')|[-> _]]; [exact (So j pc c' Hj' Hr)|now destruct Hl]. }
    assert (D : (exists i a, l = LUser i a /\ current (g_pc g) = Some i) \/
                (forall i a, l = LUser i a -> current (g_pc g) <> Some i)).
    { destruct l; try (right; discriminate).
      destruct (current (g_pc g)) as [k|] eqn:Ek; [|right; discriminate].
      destruct (Nat.eq_dec k i) as [-> |Hn]; [left; eauto|right; congruence]. }
    destruct D as [(i & a & -> & Ec)|D].
    + destruct (g_pc g) as [|i0| |] eqn:Ep; try discriminate. cbn [current] in Ec. injection Ec as ->.
      destruct I as (pc & c & Hi & Hc & Ex & F).
      destruct (call_step ls st i a st' ys pc c Leg S0 So Hi Hc Ex F St) as (pc' & P1 & P2 & P3).
      split; [exact (Sole_replace _ _ _ _ _ So P3 (fun _ => eq_refl))|].
      exists ys. split; [exact Y|]. exists pc', false. split; [exact P1|]. split; [discriminate|].
      split; [exact (T_exists_step _ _ _ B R St Ex)|].
      revert P2. clear. intros P2. destruct pc' as [[]| | | | | | | | | | | | | | | |[]]; cbn [call_at] in *; try exact P2.
      destruct P2 as [P2 [[P3 P4]|P3]]; (split; [exact P2|]); [left; split; [exact P3|now apply cancelled_app]|right; exact P3].
    + assert (N : forall i a pc c, l = LUser i a -> nth_error (p_users st) i = Some (pc, c) -> ~ receiving pc).
      { intros i a pc c -> Hi Hr. exact (D i a eq_refl (So i pc c Hi Hr)). }
      destruct (Q N) as [Q1 Q2]. split; [exact Q1|]. exists ys. split; [exact Y|].
      destruct (g_pc g) as [|i| |e] eqn:Ep.
      * congruence.
      * destruct I as (pc & c & Hi & Hc & Ex & F).
        destruct (step_other_user X cfg st l st' i pc c (proj1 R)) as (c' & P1 & P2 & P3); [|exact St|exact Hi|].
        { intros a ->. now apply (D i a). }
        exists pc, c'. split; [exact P1|]. split.
        { intros ->. assert (Dc : l = LCancel i \/ l <> LCancel i).
          { destruct l; try (right; discriminate). destruct (Nat.eq_dec i0 i); [left; congruence|right; congruence]. }
          destruct Dc as [-> |Dc]; [exists i; apply in_app_iff; right; now left|]. apply cancelled_app, Hc. symmetry. auto. }
        split; [exact (T_exists_step _ _ _ B R St Ex)|].
        destruct pc as [[]| | | | | | | | | | | | | | | |[]]; cbn [call_at] in *; try contradiction; try congruence.
        -- destruct F as [F1 F2]. split; [congruence|]. now apply (drained_step st l).
        -- destruct F as [F1 F2]. split; [congruence|]. now apply (fate_step ls _ st l).
      * destruct I as (I1 & I2 & code & reason & I3 & I4). split; [congruence|]. split; [now apply (drained_step st l)|].
        exists code, reason. split; [|exact I4]. apply (close_step st l st'); try assumption; [apply S0|apply S1|apply I2].
      * destruct I as (I1 & I2 & I3). split; [congruence|]. split; [now apply (fate_step ls _ st l)|exact I3].
  - destruct (g_pc g) eqn:Ep; try discriminate. destruct (T_exists (g_conn g)) eqn:Ex; [|discriminate].
    destruct (step X cfg (g_conn g) (LCall CallRecv)) as [st'|] eqn:St; [|discriminate]. apply some_inj in H as <-.
    set (st := g_conn g) in *. unfold GInv, iter_at in *. cbn [g_conn g_pc g_yielded]. fold st in I. rewrite Ep in I.
    split; [exact (Sound_step _ _ _ _ S0 So St)|]. cbn [step] in St. apply some_inj in St as <-. cbn [current].
    split.
    + intros j pc c Hj Hr. cbn [p_users set_users] in Hj.
      destruct (Nat.lt_ge_cases j (length (p_users st))) as [L|Ge].
      * rewrite nth_error_app1 in Hj by exact L. pose proof (So j pc c Hj Hr) as Q. discriminate.
      * f_equal. assert (Q : (j < length (p_users st ++ [(UStart CallRecv, false)]))%nat) by (apply nth_error_Some; congruence).
        rewrite app_length in Q. cbn [length] in Q. lia.
    + exists ys. split; [exact Y|]. exists (UStart CallRecv), false. cbn [p_users set_users].
      split; [rewrite nth_error_app2, Nat.sub_diag by lia; reflexivity|]. split; [discriminate|]. split; [exact Ex|exact I].
  - unfold GInv, iter_at in *. destruct (g_pc g) as [|i| |] eqn:Ep; try discriminate.
    destruct I as (pc & c & Hi & Hc & Ex & F). rewrite Hi in H.
    assert (So' : (forall r, pc <> UDone r) \/ Sole None (g_conn g)).
    { assert (Dp : (exists r, pc = UDone r) \/ forall r, pc <> UDone r) by (destruct pc; eauto; right; discriminate).
      destruct Dp as [(r & ->)|Dp]; [right|now left]. intros j pc' c' Hj Hr. exfalso.
      pose proof (So j pc' c' Hj Hr) as Q. injection Q as <-. rewrite Hi in Hj. injection Hj as <- _.
      destruct Hr as [Q|(w & Q)]; discriminate. }
    destruct So' as [N|So']; [destruct pc; try discriminate; now contradiction (N r)|].
    destruct pc as [| | | | | | | | | | | | | | | |[|m|w|e]]; try discriminate; try contradiction; cbn [call_at] in F.
    + apply some_inj in H as <-. cbn [g_conn g_pc g_yielded current]. split; [exact S0|]. split; [exact So'|].
      exists (ys ++ [m]). split; [rewrite Y, map_app; reflexivity|exact F].
    + destruct F as [F1 F2].
      assert (F3 : fate (ls ++ [GResume]) (g_conn g) e)
        by (destruct F2 as [[Q1 Q2]|Q]; [left; split; [exact Q1|now apply cancelled_app]|right; exact Q]).
      destruct e as [e|code reason|code reason|o| |]; apply some_inj in H as <-; cbn [g_conn g_pc g_yielded current];
        (split; [exact S0|]); (split; [exact So'|]); exists ys; (split; [exact Y|]);
        try (split; [exact F1|]; split; [exact F3|discriminate]).
      destruct F2 as [[Q _]|[D Fc]]; [discriminate|]. split; [exact F1|]. split; [exact D|].
      destruct Fc as [(code' & reason' & Q1 & [[Q2 Q3]|[_ Q3]])|[(x & _ & Q)|[_ Q]]]; try discriminate.
      exists code', reason'. split; [exact Q1|exact Q2].
Qed.

Lemma GInv_initial exts : GInv [] (ginitial exts).
Proof.
  split; [|split; [intros j pc c Hj; destruct j; discriminate|exists []; split; reflexivity]].
  destruct (Recv_exec X cfg exts [] (initial exts) eq_refl) as [B R].
  destruct (Code_exec X cfg exts [] (initial exts) eq_refl) as [_ C].
  destruct (Ended_exec X cfg exts [] (initial exts) eq_refl) as [_ En].
  split; [exact B|]. split; [exact R|]. split; [exact C|]. split; [exact En|].
  split; [|exact (Registered_exec X cfg exts [] (initial exts) eq_refl)].
  split; [intros j w j' w' (c & Q)|intros j w (c & Q)]; destruct j; discriminate.
Qed.
Lemma gexec_app g ls1 ls2 :
  gexec X cfg g (ls1 ++ ls2) = match gexec X cfg g ls1 with Some g => gexec X cfg g ls2 | None => None end.
Proof.
  revert g. induction ls1 as [|l ls1 IH]; intros g; [reflexivity|]. cbn [app gexec]. destruct (gstep X cfg g l); [apply IH|reflexivity].
Qed.
Lemma gexec_inv exts ls g : c_legacy_recv cfg = false -> only_receiver ls ->
  gexec X cfg (ginitial exts) ls = Some g -> GInv ls g.
Proof.
  intros Leg. revert g. induction ls as [|l ls IH] using rev_ind; intros g O H.
  - apply some_inj in H as <-. apply GInv_initial.
  - rewrite gexec_app in H. destruct (gexec X cfg (ginitial exts) ls) as [g1|] eqn:H1; [|discriminate].
    cbn [gexec] in H. destruct (gstep X cfg g1 l) as [g2|] eqn:H2; [|discriminate]. apply some_inj in H as <-.
    assert (O1 : only_receiver ls) by (intros Q; apply O, in_app_iff; now left).
    apply (gstep_inv ls g1 l g2 Leg); [|now apply IH|exact H2].
    intros ->. apply O, in_app_iff. right. now left.
Qed.
End Facts.
