(* Invariants of the interactive client. *)
From Verif Require Import Base.Prelude Base.PreludeFacts Model.Streams Model.Frames
  Model.LegacyFraming Model.LegacyProtocol Model.LegacyIter Model.Exceptions Model.Main
  Spec.Messages Spec.Asyncio Spec.AsyncioIter Spec.Interactive
  Proofs.LegacyPrims Proofs.LegacyFields Proofs.LegacyShapes Proofs.LegacyUsers Proofs.LegacyClose
  Proofs.LegacyQueue Proofs.LegacyMessages Proofs.LegacyRecv Proofs.LegacyFragments Proofs.LegacySend Proofs.LegacyAuthors
  Proofs.LegacyTiming
  Properties.AsyncioState Properties.AsyncioClosing Properties.AsyncioSends Proofs.LegacyIterFacts.
Local Open Scope N_scope.

Section Facts.
Context {E : Type} (X : ext_ops E) (cfg : config) (uri : str).
Implicit Types (st : conn E) (g : interactive E).

(** Receiving *)

(* No message is awaited: all calls to recv() that didn't end yet were cancelled. *)
Definition Idle (cur : option nat) st : Prop :=
  Sole cur st /\ forall j pc c, nth_error (p_users st) j = Some (pc, c) -> receiving pc -> c = true.

Lemma receiving_dec pc : receiving pc \/ ~ receiving pc.
Proof.
  destruct pc as [[]| | | | | | | | | | | | | | | |]; try (right; intros [Q|(w0 & Q)]; discriminate).
  - left. now left.
  - left. right. now exists w.
Qed.

Lemma Idle_step cur st l st' : Sound cfg st -> Idle cur st -> step X cfg st l = Some st' -> l <> LCall CallRecv ->
  Sound cfg st' /\ Idle cur st' /\ taken st' = taken st /\ (drained st -> drained st').
Proof.
  intros S0 [So C] H N.
  assert (S1 : Sound cfg st') by exact (Sound_step X cfg _ _ _ _ S0 So H). split; [exact S1|].
  assert (D : (exists i a pc c, l = LUser i a /\ nth_error (p_users st) i = Some (pc, c) /\ receiving pc) \/
              (forall i a pc c, l = LUser i a -> nth_error (p_users st) i = Some (pc, c) -> ~ receiving pc)).
  { destruct l; try (right; discriminate). destruct (nth_error (p_users st) i) as [[pc c]|] eqn:Hi.
    - destruct (receiving_dec pc) as [R|R]; [left; exists i, a, pc, c; auto|right].
      intros i0 a0 pc0 c0 Q Hi0. injection Q as <- <-. rewrite Hi in Hi0. now injection Hi0 as <- <-.
    - right. intros i0 a0 pc0 c0 Q Hi0. injection Q as <- <-. congruence. }
  destruct D as [(i & a & pc & c & -> & Hi & R)|D].
  - assert (c = true) as -> by exact (C i pc c Hi R).
    assert (U : exists s, st' = raise_ i CancelledError s /\ p_users s = p_users st /\ p_T s = p_T st /\
                  p_messages s = p_messages st /\ p_delivered s = p_delivered st).
    { cbn [step] in H. unfold step_user in H. rewrite Hi in H. destruct R as [-> |(w & ->)];
        (destruct a; try discriminate); apply some_inj in H as <-; cbn [cancel_call]; eexists; (split; [reflexivity|]);
        repeat split; reflexivity. }
    destruct U as (s0 & -> & U1 & U2 & U3 & U4).
    assert (Us : p_users (raise_ i CancelledError s0) = replace i (UDone (RRaise CancelledError), false) (p_users st)).
    { unfold raise_, return_, set_user. cbn [p_users set_users]. now rewrite U1. }
    split; [|split].
    + split.
      * apply (Sole_replace cur st _ i (UDone (RRaise CancelledError))); [exact So|exact Us|].
        intros [Q|(w & Q)]; discriminate.
      * intros j pc' c' Hj Hr. rewrite Us in Hj.
        assert (L : (j < length (p_users st))%nat).
        { rewrite <- (length_replace i (UDone (RRaise CancelledError), false)). apply nth_error_Some. congruence. }
        destruct (Nat.eq_dec i j) as [<- |Hn].
        -- rewrite nth_error_replace_eq in Hj by exact L. injection Hj as <- <-. destruct Hr as [Q|(w & Q)]; discriminate.
        -- rewrite nth_error_replace_neq in Hj by exact Hn. eauto.
    + unfold taken. cbn [raise_ return_ set_user p_delivered set_users]. now rewrite U4.
    + intros [Q1 Q2]. split.
      * unfold T_done in *. cbn [raise_ return_ set_user p_T set_users]. now rewrite U2.
      * cbn [raise_ return_ set_user p_messages set_users]. now rewrite U3.
  - destruct (quiet_step X cfg st l st' (proj1 S0) (proj1 (proj2 S0)) H D) as (Q1 & Q2 & Q3).
    split; [|split; [unfold taken; now rewrite Q1|exact (drained_step X cfg st l st' S0 H D)]].
    assert (O : forall j pc c, nth_error (p_users st') j = Some (pc, c) -> receiving pc -> exists c', nth_error (p_users st) j = Some (pc, c')).
    { intros j pc c Hj Hr. destruct (Q3 j pc c Hj Hr) as [O|[-> _]]; [exact O|now destruct N]. }
    split.
    + intros j pc c Hj Hr. destruct (O j pc c Hj Hr) as (c' & Hj'). exact (So j pc c' Hj' Hr).
    + intros j pc c Hj Hr. destruct (O j pc c Hj Hr) as (c' & Hj'). pose proof (C j pc c' Hj' Hr) as ->.
      destruct (step_other_user X cfg st l st' j pc true (proj1 (proj1 (proj2 S0)))) as (c2 & P1 & P2 & _); [|exact H|exact Hj'|].
      { intros a ->. exact (D j a pc true eq_refl Hj' Hr). }
      rewrite P1 in Hj. injection Hj as <-. now apply P2.
Qed.

(* fate of a call that nobody cancels *)
Lemma fate_nil st e : fate [GNext] st e -> fate [] st e.
Proof. intros [[_ (i & [Q|[]])]|Q]; [discriminate|now right]. Qed.

(* A call to recv() is awaited. *)
Definition Waiting (i : nat) st (ys : list message) (pc : upc) : Prop :=
  Sole (Some i) st /\ nth_error (p_users st) i = Some (pc, false) /\ T_exists st = true /\ call_at [] st ys pc.

Lemma Waiting_step i st ys pc l st' : c_legacy_recv cfg = false -> Sound cfg st -> Waiting i st ys pc ->
  step X cfg st l = Some st' -> l <> LCall CallRecv -> (forall j, l <> LCancel j) ->
  Sound cfg st' /\ exists pc', Waiting i st' ys pc'.
Proof.
  intros Leg S0 (So & Hi & Ex & F) H N1 N2.
  assert (S1 : Sound cfg st') by exact (Sound_step X cfg _ _ _ _ S0 So H). split; [exact S1|].
  assert (B : Base st) by apply S0. assert (R : Recv cfg st) by apply S0.
  assert (Ex' : T_exists st' = true) by exact (T_exists_step X cfg _ _ _ B R H Ex).
  assert (D : (exists a, l = LUser i a) \/ (forall a, l <> LUser i a)).
  { destruct l; try (right; discriminate). destruct (Nat.eq_dec i0 i) as [-> |Hn]; [left; eauto|right; congruence]. }
  destruct D as [(a & ->)|D].
  - destruct (call_step X cfg [] st i a st' ys pc false Leg S0 So Hi (fun Q => match Bool.diff_false_true Q with end) Ex F H)
      as (pc' & P1 & P2 & P3).
    exists pc'. split; [exact (Sole_replace _ _ _ _ _ So P3 (fun _ => eq_refl))|]. auto.
  - assert (N : forall i a pc c, l = LUser i a -> nth_error (p_users st) i = Some (pc, c) -> ~ receiving pc).
    { intros j a pc' c -> Hj Hr. pose proof (So j pc' c Hj Hr) as Q. injection Q as ->. now apply (D a). }
    destruct (quiet_step X cfg _ _ _ B R H N) as (Q1 & Q2 & Q3).
    destruct (step_other_user X cfg st l st' i pc false (proj1 R) D H Hi) as (c' & P1 & _ & P3).
    exists pc. split.
    { intros j pc' c Hj Hr. destruct (Q3 j pc' c Hj Hr) as [(c2 & Hj')|[-> _]]; [exact (So j pc' c2 Hj' Hr)|now destruct N1]. }
    split; [rewrite P1; f_equal; f_equal; now apply P3|]. split; [exact Ex'|].
    assert (T : taken st' = taken st) by (unfold taken; now rewrite Q1).
    destruct pc as [[]| | | | | | | | | | | | | | | |[]]; cbn [call_at] in *; try contradiction; try congruence.
    + destruct F as [F1 F2]. split; [congruence|]. now apply (drained_step X cfg st l).
    + destruct F as [F1 F2]. split; [congruence|]. apply fate_nil. now apply (fate_step X cfg [] GNext st l).
Qed.

(** Writing *)

(* Calls other than the o-th one don't write data frames. *)
Definition Silent (o : option nat) st : Prop :=
  forall j pc c, nth_error (p_users st) j = Some (pc, c) -> o <> Some j -> NW pc.
Definition sends (c : call) : bool := match c with CallSend _ => true | _ => false end.

Lemma Silent_step o st l st' : Waiters st -> Silent o st -> step X cfg st l = Some st' ->
  (forall c, l = LCall c -> sends c = false) -> (forall j a, l = LUser j a -> o <> Some j) ->
  Silent o st' /\ datas (p_out st') = datas (p_out st).
Proof.
  intros W Si H N1 N2.
  assert (D : (exists j a, l = LUser j a) \/ (forall j a, l <> LUser j a)) by (destruct l; eauto; right; discriminate).
  destruct D as [(i & a & ->)|D].
  - cbn [step] in H. destruct (nth_error (p_users st) i) as [[pc c]|] eqn:Hi;
      [|unfold step_user in H; rewrite Hi in H; discriminate].
    pose proof (N2 i a eq_refl) as N.
    destruct (step_user_quiet X cfg i st a st' pc c Hi (Si i pc c Hi N) H) as (Q1 & pc' & Q2 & Q3).
    split; [|exact Q1]. intros j pc2 c2 Hj Hn. rewrite Q3 in Hj.
    assert (L : (j < length (p_users st))%nat) by (rewrite <- (length_replace i (pc', false)); apply nth_error_Some; congruence).
    destruct (Nat.eq_dec i j) as [<- |Hd].
    + rewrite nth_error_replace_eq in Hj by exact L. injection Hj as <- _. exact Q2.
    + rewrite nth_error_replace_neq in Hj by exact Hd. eauto.
  - split; [|exact (step_other_datas X cfg _ _ _ D H)]. intros j pc c Hj Hn.
    destruct (nth_error (p_users st) j) as [[pc0 c0]|] eqn:Hj0.
    + destruct (step_other_user X cfg st l st' j pc0 c0 W (D j) H Hj0) as (c' & Q & _). rewrite Q in Hj. injection Hj as <- _. eauto.
    + assert (Ge : (length (p_users st) <= j)%nat) by now apply nth_error_None.
      assert (Lt : (j < length (p_users st'))%nat) by (apply nth_error_Some; congruence).
      destruct (step_length X cfg st l st' W H) as [Q|(c1 & -> & Q)]; [lia|]. rewrite Q, nth_error_app2 in Hj by exact Ge.
      destruct (j - length (p_users st))%nat as [|[|n]]; cbn [nth_error] in Hj; try discriminate.
      injection Hj as <- <-. pose proof (N1 c1 eq_refl) as Q'. destruct c1; try discriminate; exact Logic.I.
Qed.

(* The frames written by the j-th call, all of them being data frames *)
Lemma written_datas j st D0 Dj : datas (p_out st) = D0 ++ Dj ->
  Forall (fun x => o_by x <> ByCall j) D0 -> Forall (fun x => o_by x = ByCall j) Dj ->
  Forall (fun f => is_data_b f = true) (written_by (ByCall j) st) ->
  map o_frame Dj = written_by (ByCall j) st.
Proof.
  intros H F0 Fj Fd. unfold written_by in *.
  set (mine := fun x => if writer_eq_dec (o_by x) (ByCall j) then true else false) in *.
  assert (Q : filter mine (datas (p_out st)) = filter mine (p_out st)).
  { unfold datas. clear H. induction (p_out st) as [|x l IH]; [reflexivity|]. cbn [filter].
    destruct (mine x) eqn:M.
    - cbn [filter] in Fd. rewrite M in Fd. cbn [map] in Fd.
      rewrite (Forall_inv Fd). cbn [filter]. rewrite M. f_equal. apply IH. exact (Forall_inv_tail Fd).
    - cbn [filter] in Fd. rewrite M in Fd. destruct (is_data_b (o_frame x)); [cbn [filter]; rewrite M|]; now apply IH. }
  rewrite <- Q, H, filter_app.
  assert (Q0 : filter mine D0 = []).
  { clear - F0. induction F0 as [|x l Hx F IH]; [reflexivity|]. cbn [filter]. unfold mine at 1.
    destruct (writer_eq_dec _ _) as [Y|_]; [contradiction|exact IH]. }
  assert (Qj : filter mine Dj = Dj).
  { clear - Fj. induction Fj as [|x l Hx F IH]; [reflexivity|]. cbn [filter]. unfold mine at 1.
    destruct (writer_eq_dec _ _) as [_|Y]; [now rewrite IH|contradiction]. }
  now rewrite Q0, Qj.
Qed.

(* The j-th call is send(x). *)
Definition Sending (j : nat) (x : str) (D0 : list sent) st (pc : upc) : Prop :=
  Silent (Some j) st /\ nth_error (p_users st) j = Some (pc, false) /\
  Sd (SData (PStr x)) [] pc (written_by (ByCall j) st) /\
  Forall (fun y => o_by y <> ByCall j) D0 /\
  exists Dj, datas (p_out st) = D0 ++ Dj /\ Forall (fun y => o_by y = ByCall j) Dj.

Lemma Sending_step j x D0 st pc l st' : Waiters st -> Sending j x D0 st pc -> step X cfg st l = Some st' ->
  (forall c, l = LCall c -> sends c = false) -> (forall i, l = LCancel i -> i <> j) -> exists pc', Sending j x D0 st' pc'.
Proof.
  intros W (Si & Hj & S0 & F0 & Dj & H1 & Fj) H N1 N2.
  assert (D : (exists a, l = LUser j a) \/ (forall a, l <> LUser j a)).
  { destruct l; try (right; discriminate). destruct (Nat.eq_dec i j) as [-> |Hn]; [left; eauto|right; congruence]. }
  destruct D as [(a & ->)|D].
  - cbn [step] in H.
    assert (L : (j < length (p_users st))%nat) by (apply nth_error_Some; congruence).
    destruct (step_user_send X cfg j (SData (PStr x)) st a st' [] pc false Hj S0 (fun _ => eq_refl) H) as (pc' & Q1 & Q2).
    destruct (step_user_mine X cfg j st a st' H) as (new & Q3 & Q4).
    exists pc'. split; [|split; [|split; [exact Q2|split; [exact F0|]]]].
    + intros i pc2 c2 Hi Hn. rewrite Q1, nth_error_replace_neq in Hi by congruence. eauto.
    + rewrite Q1. now apply nth_error_replace_eq.
    + exists (Dj ++ new). rewrite Q3, H1, app_assoc. split; [reflexivity|]. apply Forall_app. now split.
  - destruct (Silent_step (Some j) st l st' W Si H N1) as [Q1 Q2].
    { intros i a -> Q. injection Q as ->. now apply (D a). }
    destruct (step_other_user X cfg st l st' j pc false W D H Hj) as (c' & P1 & _ & P2).
    exists pc. split; [exact Q1|]. split; [rewrite P1; f_equal; f_equal; apply P2|].
    { intros ->. now apply (N2 j). }
    split; [now rewrite (step_other_written X cfg st l st' j D H)|]. split; [exact F0|].
    exists Dj. rewrite Q2. now split.
Qed.
(* what it has written once it's done *)
Lemma Sending_done j x D0 st r : Sending j x D0 st (UDone r) ->
  Silent None st /\
  ((exists f, text_frame x f /\ map o_frame (datas (p_out st)) = map o_frame D0 ++ [f]) \/
   (exists e, r = RRaise e) /\ datas (p_out st) = D0).
Proof.
  intros (Si & Hj & S0 & F0 & Dj & H1 & Fj). split.
  { intros i pc c Hi _. destruct (Nat.eq_dec j i) as [<- |Hn]; [|apply (Si i pc c Hi); congruence].
    rewrite Hj in Hi. injection Hi as <- <-. exact Logic.I. }
  assert (G : sends_all (SData (PStr x)) [] (written_by (ByCall j) st) ->
    exists f, text_frame x f /\ map o_frame (datas (p_out st)) = map o_frame D0 ++ [f]).
  { intros (op & data & [-> Q1] & Q2). exists (mkframe true TEXT data). split; [exists data; now split|].
    rewrite H1, map_app. f_equal. rewrite (written_datas j st D0 Dj H1 F0 Fj); [exact Q2|]. rewrite Q2. now constructor. }
  destruct r as [|m|w|e]; try contradiction; cbn [Sd] in S0; [left; now apply G|].
  destruct S0 as [S0|[S0|[S0 _]]]; [|left; now apply G|contradiction].
  right. split; [now exists e|].
  assert (Q : map o_frame Dj = []) by (rewrite (written_datas j st D0 Dj H1 F0 Fj); [exact S0|rewrite S0; constructor]).
  rewrite H1. destruct Dj; [now rewrite app_nil_r|discriminate].
Qed.

(** Closing *)

Definition closing_at st (pc : upc) : Prop :=
  match pc with
  | UStart (CallClose 1000 []) | UCloseWrite _ _ | UCloseEnsure _ _ | UCloseT _ _ | UCloseT2 _ => True
  | UCloseC _ => T_done st = true
  | UDone RNone => T_done st = true /\ p_C st = CDone None
  | UDone (RRaise _) => True
  | _ => False
  end.
Definition Closing_call (k : nat) st (pc : upc) : Prop :=
  nth_error (p_users st) k = Some (pc, false) /\ closing_at st pc.

Lemma Closing_step k st pc l st' : Base st -> Waiters st -> Closing_call k st pc -> step X cfg st l = Some st' ->
  l <> LCancel k -> exists pc', Closing_call k st' pc'.
Proof.
  intros B W (Hk & F) H N. assert (L : (k < length (p_users st))%nat) by (apply nth_error_Some; congruence).
  assert (D : (exists a, l = LUser k a) \/ (forall a, l <> LUser k a)).
  { destruct l; try (right; discriminate). destruct (Nat.eq_dec i k) as [-> |Hn]; [left; eauto|right; congruence]. }
  destruct D as [(a & ->)|D].
  - cbn [step] in H. unfold step_user in H. rewrite Hk in H.
    assert (Rs : forall s e, p_users s = p_users st -> exists pc', Closing_call k (raise_ k e s) pc').
    { intros s1 e Us. exists (UDone (RRaise e)). split; [apply nth_set_user; now rewrite Us|exact Logic.I]. }
    assert (Cw : forall s t0, p_users s = p_users st -> exists pc', Closing_call k (close_wait_T cfg s k t0) pc').
    { intros s1 t0 Us. unfold close_wait_T. destruct (T_exists s1); [|now apply Rs].
      eexists. split; [apply nth_set_user; now rewrite Us|exact Logic.I]. }
    assert (Ct : forall t0, exists pc', Closing_call k (close_timed_out X cfg st k t0) pc').
    { intros t0. unfold close_timed_out. destruct (fail_connection _ _ _ _) as [s2 e2] eqn:Fl. apply fail_gr in Fl.
      apply Cw. apply Fl. }
    assert (St' : forall s pc', p_users s = p_users st -> closing_at (set_user k pc' s) pc' -> exists pc2, Closing_call k (set_user k pc' s) pc2).
    { intros s1 pc' Us Q. exists pc'. split; [apply nth_set_user; now rewrite Us|exact Q]. }
    destruct pc as [c0| | | | | | | | | |d t0|d t0|d t0|t0|t0| |r]; try contradiction; unfold step_call in H.
    + destruct c0; try contradiction. cbn [start_call] in H. destruct a; try discriminate. apply some_inj in H as <-.
      unfold close_start. destruct (serialize_close _ _); [|now apply Rs].
      assert (G : exists pc', Closing_call k
        match write_close_frame X cfg st (ByCall k) a with
        | (st2, Some (Some e)) => raise_ k (PyExn e) st2
        | (st2, Some None) => set_user k (UCloseWrite (deadline st2 (c_close_timeout cfg)) (p_now st2)) st2
        | (st2, None) => close_wait_T cfg st2 k (p_now st2)
        end pc').
      { destruct (write_close_frame _ _ _ _ _) as [s2 r] eqn:Wr. apply write_close_frame_gr in Wr.
        destruct r as [[e|]|]; [apply Rs, Wr|apply St'; [apply Wr|exact Logic.I]|apply Cw, Wr]. }
      destruct (c_close_timeout cfg) as [[|q]|]; [apply Ct|exact G|exact G].
    + assert (G : match after_drain X cfg st a with
                  | Some (s2, EOk) => Some (close_wait_T cfg s2 k t0)
                  | Some (s2, ERaise e) => Some (raise_ k e s2)
                  | Some (s2, EWait) => Some (set_user k (UCloseEnsure d t0) s2)
                  | None => None
                  end = Some st' -> exists pc', Closing_call k st' pc').
      { destruct (after_drain X cfg st a) as [[s2 r]|] eqn:Ad; [|discriminate]. apply after_drain_gr in Ad.
        destruct r; intros Q; apply some_inj in Q as <-; [apply Cw, Ad|apply Rs, Ad|apply St'; [apply Ad|exact Logic.I]]. }
      destruct a; auto. destruct (expired st d); [|discriminate]. apply some_inj in H as <-. apply Ct.
    + destruct a; try discriminate.
      * destruct (ensure_open_end st); [|discriminate]. apply some_inj in H as <-. now apply Rs.
      * destruct (expired st d); [|discriminate]. apply some_inj in H as <-. apply Ct.
    + destruct a; try discriminate.
      * destruct (p_T st) as [| | | | | | |[e|]] eqn:Et; try discriminate; apply some_inj in H as <-; [now apply Rs|].
        apply St'; [reflexivity|]. unfold closing_at, T_done. cbn [p_T set_user set_users]. now rewrite Et.
      * destruct (expired st d); [|discriminate]. apply some_inj in H as <-. apply St'; [apply cancel_T_gr|exact Logic.I].
    + destruct a; try discriminate. destruct (T_done st) eqn:Td; [|discriminate]. apply some_inj in H as <-.
      apply St'; [reflexivity|exact Td].
    + destruct a; try discriminate. destruct (p_C st) as [| | | | | | |[e|]] eqn:Ec; try discriminate; apply some_inj in H as <-; [now apply Rs|].
      exists (UDone RNone). split; [now apply nth_set_user|]. split; [exact F|exact Ec].
    + discriminate.
  - destruct (step_other_user X cfg st l st' k pc false W D H Hk) as (c' & P1 & _ & P2).
    exists pc. split; [rewrite P1; f_equal; f_equal; now apply P2|].
    assert (Td : T_done st = true -> T_done st' = true).
    { intros Q. destruct (T_done_step X cfg st l st' B H Q) as (Q1 & _). unfold T_done in *. now rewrite Q1. }
    destruct (step_ended X cfg st l st' B H) as (E1 & _).
    destruct pc as [[]| | | | | | | | | | | | | | | |[]]; try exact F; cbn [closing_at] in *; auto.
    destruct F as [F1 F2]. split; [now apply Td|auto].
Qed.

(** The program *)

Definition Rc g (ys : list message) : Prop :=
  let st := m_conn g in
  match m_pc g with
  | MConnecting | MNotConnected => Idle None st /\ taken st = ys
  | MLooping prev => Idle prev st /\ taken st = ys /\ T_exists st = true
  | MWaiting i _ => exists pc, Waiting i st ys pc
  | MSending i _ _ => Idle (Some i) st /\ taken st = ys /\ T_exists st = true
  | MClosing _ how | MExited how => (exists cur, Idle cur st) /\ taken st = ys /\ (how = PeerClosed -> drained st)
  | MDead _ => (exists cur, Idle cur st) /\ taken st = ys
  end.
Definition Outs g (ys : list message) : Prop :=
  match m_pc g with
  | MConnecting => m_out g = [] /\ ys = []
  | MNotConnected => (exists x, m_out g = [not_connected uri x]) /\ ys = []
  | MExited _ => exists code reason, p_close (m_conn g) = Some (code, reason) /\ T_done (m_conn g) = true /\
      m_out g = connected uri :: map show ys ++ [closed_with (format_close code reason)]
  | _ => m_out g = connected uri :: map show ys
  end.
Definition may_lose (pc : mpc) : Prop :=
  match pc with MClosing _ how | MExited how => how <> UserStopped | MDead _ => True | _ => False end.
Definition may_fail (pc : mpc) : Prop :=
  match pc with MClosing _ how | MExited how => how = Failed | MDead _ => True | _ => False end.
(* ws: the lines that were written; rest: one that couldn't be *)
Definition Written st (lines ws rest : list str) : Prop :=
  lines = ws ++ rest /\ Forall2 text_frame ws (map o_frame (datas (p_out st))).
Definition Wr g : Prop :=
  let st := m_conn g in
  match m_pc g with
  | MSending _ j _ => exists earlier x D0 pc, m_sent g = earlier ++ [x] /\ Sending j x D0 st pc /\
      Forall2 text_frame earlier (map o_frame D0)
  | pc => Silent None st /\ exists ws rest, Written st (m_sent g) ws rest /\
      (rest = [] \/ (exists x, rest = [x]) /\ may_fail pc)
  end.
Definition Cl g : Prop :=
  match m_pc g with
  | MClosing k _ => exists pc, Closing_call k (m_conn g) pc
  | MDead e => (exists k c, nth_error (p_users (m_conn g)) k = Some (UDone (RRaise e), c)) \/
               (p_aborted (m_conn g) <> None /\ e = PyExn AttributeError)
  | _ => True
  end.
Definition Ln g : Prop :=
  exists held, m_typed g = m_sent g ++ held ++ m_inputs g ++ unseen (m_calls g) /\
    match m_pc g with
    | MWaiting _ (Some x) => held = [x]
    | pc => held = [] \/ (exists x, held = [x]) /\ may_lose pc
    end.
Definition Th (ls : list mlabel) g : Prop :=
  match m_pc g with
  | MNotConnected | MExited _ => m_main g <> Reading
  | _ => (m_main g = Reading -> m_stop g = false /\ ~ In SetStop (m_calls g)) /\
         (m_main g = Reading \/ m_main g = Joining) /\
         ((m_stop g = true \/ In SetStop (m_calls g)) -> In MEof ls)
  end /\
  match m_pc g with
  | MClosing _ UserStopped | MExited UserStopped | MSending _ _ true => In MEof ls
  | _ => True
  end.
Definition MInv (exts : list E) (ls : list mlabel) g : Prop :=
  (exists cls, exec X cfg (initial exts) cls = Some (m_conn g)) /\ Sound cfg (m_conn g) /\
  (exists ys, Rc g ys /\ Outs g ys) /\ Wr g /\ Cl g /\ Ln g /\ Th ls g.

Lemma exec_snoc exts cls st l st' : exec X cfg (initial exts) cls = Some st -> step X cfg st l = Some st' ->
  exec X cfg (initial exts) (cls ++ [l]) = Some st'.
Proof. intros H1 H2. rewrite exec_app, H1. cbn [exec]. now rewrite H2. Qed.
Lemma Sound_waiters st : Sound cfg st -> Waiters st.
Proof. intros (_ & R & _). apply R. Qed.

(* Something else happens on the connection. *)
Lemma conn_inv exts ls g l st' : c_legacy_recv cfg = false -> others l = true -> MInv exts ls g ->
  step X cfg (m_conn g) l = Some st' -> MInv exts (ls ++ [MConn l]) (with_conn st' g).
Proof.
  intros Leg Ot ((cls & He) & S0 & (ys & R & O) & W & C & L & T) H. set (st := m_conn g) in *.
  assert (N1 : forall c, l <> LCall c) by (intros c ->; discriminate).
  assert (N2 : forall j, l <> LCancel j) by (intros c ->; discriminate).
  assert (I : forall cur, Idle cur st -> Sound cfg st' /\ Idle cur st' /\ taken st' = taken st /\ (drained st -> drained st')).
  { intros cur Id. apply (Idle_step cur st l st' S0 Id H). apply N1. }
  assert (Wt : Waiters st) by now apply Sound_waiters.
  assert (S1 : Sound cfg st').
  { unfold Rc in R. cbv zeta in R. fold st in R.
    destruct (m_pc g); try (apply (I _ (proj1 R))); try (destruct (proj1 R) as (cur & R1); exact (proj1 (I cur R1))).
    destruct R as (pc & R). exact (proj1 (Waiting_step i st ys pc l st' Leg S0 R H (N1 _) N2)). }
  assert (Ex : T_exists st = true -> T_exists st' = true).
  { intros Q. exact (T_exists_step X cfg _ _ _ (proj1 S0) (proj1 (proj2 S0)) H Q). }
  split; [exists (cls ++ [l]); exact (exec_snoc exts cls st l st' He H)|]. split; [exact S1|].
  split; [|split; [|split; [|split]]].
  - exists ys. unfold Rc, Outs in *. cbn [with_conn m_conn m_pc m_out] in *. fold st in R, O.
    destruct (m_pc g) as [|prev|i out|i j b|k how| |how|e].
    + destruct R as [R1 R2]. destruct (I _ R1) as (_ & I1 & I2 & _). split; [split; [exact I1|congruence]|exact O].
    + destruct R as (R1 & R2 & R3). destruct (I _ R1) as (_ & I1 & I2 & _). split; [split; [exact I1|split; [congruence|auto]]|exact O].
    + destruct R as (pc & R). split; [exact (proj2 (Waiting_step i st ys pc l st' Leg S0 R H (N1 _) N2))|exact O].
    + destruct R as (R1 & R2 & R3). destruct (I _ R1) as (_ & I1 & I2 & _). split; [split; [exact I1|split; [congruence|auto]]|exact O].
    + destruct R as ((cur & R1) & R2 & R3). destruct (I _ R1) as (_ & I1 & I2 & I3).
      split; [split; [now exists cur|split; [congruence|auto]]|exact O].
    + destruct R as [R1 R2]. destruct (I _ R1) as (_ & I1 & I2 & _). split; [split; [exact I1|congruence]|exact O].
    + destruct R as ((cur & R1) & R2 & R3). destruct (I _ R1) as (_ & I1 & I2 & I3).
      split; [split; [now exists cur|split; [congruence|auto]]|].
      destruct O as (code & reason & O1 & O2 & O3). exists code, reason.
      split; [apply (close_step X cfg st l st'); try assumption; [apply S0|apply S0|apply S1]|].
      split; [|exact O3]. destruct (T_done_step X cfg st l st' (proj1 S0) H O2) as (Q & _). unfold T_done in *. now rewrite Q.
    + destruct R as ((cur & R1) & R2). destruct (I _ R1) as (_ & I1 & I2 & I3). split; [split; [now exists cur|congruence]|exact O].
  - unfold Wr in *. cbn [with_conn m_conn m_pc m_sent] in *. fold st in W.
    assert (Q : Silent None st -> Silent None st' /\ datas (p_out st') = datas (p_out st)).
    { intros Si. apply (Silent_step None st l st' Wt Si H); [intros c ->; now contradiction (N1 c)|discriminate]. }
    assert (G : forall pc, (Silent None st /\ exists ws rest, Written st (m_sent g) ws rest /\ (rest = [] \/ (exists x, rest = [x]) /\ may_fail pc)) ->
      Silent None st' /\ exists ws rest, Written st' (m_sent g) ws rest /\ (rest = [] \/ (exists x, rest = [x]) /\ may_fail pc)).
    { intros pc (Si & ws & rest & [W1 W2] & W3). destruct (Q Si) as [Q1 Q2]. split; [exact Q1|]. exists ws, rest.
      split; [split; [exact W1|now rewrite Q2]|exact W3]. }
    destruct (m_pc g) as [|prev|i out|i j b|k how| |how|e]; try (apply (G _ W)).
    destruct W as (earlier & x & D0 & pc & W1 & W2 & W3).
    destruct (Sending_step j x D0 st pc l st' Wt W2 H) as (pc' & Q'); [intros c ->; now contradiction (N1 c)|intros i0 ->; now contradiction (N2 i0)|].
    exists earlier, x, D0, pc'. auto.
  - unfold Cl in *. cbn [with_conn m_conn m_pc] in *. fold st in C. destruct (m_pc g); try exact Logic.I.
    + destruct C as (pc & C). exact (Closing_step k st pc l st' (proj1 S0) Wt C H (N2 k)).
    + destruct C as [(k & c & C)|[C1 C2]].
      * left. exists k. assert (N : forall a, l <> LUser k a).
        { intros a ->. cbn [step] in H. unfold step_user in H. rewrite C in H. destruct c; discriminate. }
        destruct (step_other_user X cfg st l st' k _ c Wt N H C) as (c' & Q & _). now exists c'.
      * right. split; [now apply (step_ended X cfg st l st' (proj1 S0) H)|exact C2].
  - exact L.
  - unfold Th in *. cbn [with_conn m_conn m_pc m_main m_stop m_calls] in *.
    assert (A : forall y, In y ls -> In y (ls ++ [MConn l])) by (intros; apply in_app_iff; now left).
    destruct T as [T1 T2]. split.
    + destruct (m_pc g); try exact T1; destruct T1 as (T3 & T4 & T5); (split; [exact T3|]); (split; [exact T4|]); auto.
    + destruct (m_pc g) as [| | |? ? []|? []| |[]|]; auto.
Qed.

(* run_client() runs. *)
Definition Th0 (ls : list mlabel) g : Prop :=
  (m_main g = Reading -> m_stop g = false /\ ~ In SetStop (m_calls g)) /\
  (m_main g = Reading \/ m_main g = Joining) /\
  ((m_stop g = true \/ In SetStop (m_calls g)) -> In MEof ls).
Definition Mid (exts : list E) (ls : list mlabel) g (ys : list message) (cur : option nat) : Prop :=
  (exists cls, exec X cfg (initial exts) cls = Some (m_conn g)) /\ Sound cfg (m_conn g) /\
  Idle cur (m_conn g) /\ taken (m_conn g) = ys /\ T_exists (m_conn g) = true /\
  m_out g = connected uri :: map show ys /\ Silent None (m_conn g) /\ Th0 ls g.

Lemma call_step_ok st c : step X cfg st (LCall c) = Some (set_users (p_users st ++ [(UStart c, false)]) st).
Proof. reflexivity. Qed.
Lemma new_call st c : nth_error (p_users (set_users (p_users st ++ [(UStart c, false)]) st)) (length (p_users st)) = Some (UStart c, false).
Proof. cbn [p_users set_users]. rewrite nth_error_app2, Nat.sub_diag by apply le_n. reflexivity. Qed.

Lemma finalize_inv exts ls g ys cur how g' ws rest held : Mid exts ls g ys cur ->
  finalize X cfg g how = Some g' ->
  (how = PeerClosed -> drained (m_conn g)) -> (how = UserStopped -> In MEof ls) ->
  Written (m_conn g) (m_sent g) ws rest -> (rest = [] \/ (exists x, rest = [x]) /\ how = Failed) ->
  m_typed g = m_sent g ++ held ++ m_inputs g ++ unseen (m_calls g) -> (held = [] \/ (exists x, held = [x]) /\ how <> UserStopped) ->
  MInv exts ls g'.
Proof.
  intros ((cls & He) & S0 & Id & Ta & Ex & Ou & Si & T) H Hd Hu W1 W2 L1 L2.
  unfold finalize, on_conn in H. rewrite call_step_ok in H. apply some_inj in H as <-.
  set (st := m_conn g) in *. set (st' := set_users _ st).
  assert (St : step X cfg st (LCall (CallClose 1000 [])) = Some st') by reflexivity.
  destruct (Idle_step cur st _ st' S0 Id St) as (S1 & I1 & I2 & I3); [discriminate|].
  destruct (Silent_step None st _ st' (Sound_waiters _ S0) Si St) as [Q1 Q2];
    [intros c Q; injection Q as <-; reflexivity|discriminate|].
  split; [exists (cls ++ [LCall (CallClose 1000 [])]); exact (exec_snoc exts cls st _ st' He St)|].
  split; [exact S1|]. split; [|split; [|split; [|split]]].
  - exists ys. split; [|exact Ou]. split; [now exists cur|]. split; [cbn [m_conn with_pc with_conn]; congruence|auto].
  - split; [exact Q1|]. exists ws, rest. destruct W1 as [W1 W3]. split; [split; [exact W1|cbn [m_conn with_pc with_conn]; now rewrite Q2]|].
    destruct W2 as [W2|[W2 W4]]; [now left|right; split; [exact W2|exact W4]].
  - exists (UStart (CallClose 1000 [])). split; [apply new_call|exact Logic.I].
  - exists held. split; [exact L1|exact L2].
  - split; [exact T|]. cbn [m_pc with_pc]. destruct how; auto.
Qed.

Lemma after_incoming_inv exts ls g ys i out stopping g' : Mid exts ls g ys (Some i) ->
  after_incoming X cfg g i out stopping = Some g' -> (stopping = true -> In MEof ls) ->
  Written (m_conn g) (m_sent g) (m_sent g) [] ->
  m_typed g = m_sent g ++ match out with Some x => [x] | None => [] end ++ m_inputs g ++ unseen (m_calls g) ->
  MInv exts ls g'.
Proof.
  intros M H Hs W L. unfold after_incoming in H. destruct out as [x|].
  - destruct M as ((cls & He) & S0 & Id & Ta & Ex & Ou & Si & T).
    unfold on_conn in H. rewrite call_step_ok in H. apply some_inj in H as <-.
    set (st := m_conn g) in *. set (c := CallSend (SData (PStr x))) in *. set (st' := set_users _ st).
    assert (St : step X cfg st (LCall c) = Some st') by reflexivity.
    destruct (Idle_step (Some i) st _ st' S0 Id St) as (S1 & I1 & I2 & I3); [discriminate|].
    pose proof (Authors_exec X cfg exts cls st He) as (A1 & _ & A2).
    assert (Au : Forall (fun y => o_by y <> ByCall (length (p_users st))) (datas (p_out st))).
    { apply Forall_forall. intros y Hy Q. destruct (A2 y Hy) as (k & m & B1 & B2). rewrite Q in B1. injection B1 as <-.
      rewrite A1 in B2. assert (nth_error (calls cls) (length (calls cls)) <> None) by congruence.
      apply nth_error_Some in H. lia. }
    split; [exists (cls ++ [LCall c]); exact (exec_snoc exts cls st _ st' He St)|].
    split; [exact S1|]. split; [|split; [|split; [|split]]].
    + exists ys. split; [|exact Ou]. split; [exact I1|]. split; [cbn [m_conn with_pc with_conn sending]; congruence|exact Ex].
    + exists (m_sent g), x, (datas (p_out st)), (UStart c). split; [reflexivity|]. split; [|apply W].
      split; [|split; [apply new_call|split; [|split; [exact Au|exists []; split; [now rewrite app_nil_r|constructor]]]]].
      * intros j pc c0 Hj Hn. cbn [st' p_users set_users m_conn with_pc with_conn sending] in Hj.
        destruct (Nat.lt_ge_cases j (length (p_users st))) as [Lt|Ge].
        -- rewrite nth_error_app1 in Hj by exact Lt. apply (Si j pc c0 Hj). discriminate.
        -- exfalso. apply Hn. f_equal. assert (Q : (j < length (p_users st ++ [(UStart c, false)]))%nat) by (apply nth_error_Some; congruence).
           rewrite app_length in Q. cbn [length] in Q. lia.
      * split; [reflexivity|]. split; [|discriminate].
        cbn [m_conn with_pc with_conn sending st' ]. change (written_by (ByCall (length (p_users st))) st' = []).
        unfold written_by. change (p_out st') with (p_out st).
        pose proof (written_future X cfg exts cls st (length (p_users st)) He (le_n _)) as Q. exact Q.
    + exact Logic.I.
    + exists []. cbn [with_pc sending with_conn m_typed m_sent m_inputs m_calls m_pc]. split; [|now left].
      rewrite L. now rewrite <- app_assoc.
    + split; [exact T|]. cbn [m_pc with_pc]. destruct stopping; auto.
  - destruct stopping.
    + apply (finalize_inv exts ls g ys (Some i) UserStopped g' (m_sent g) [] []); auto; discriminate.
    + apply some_inj in H as <-. destruct M as (He & S0 & Id & Ta & Ex & Ou & Si & T).
      split; [exact He|]. split; [exact S0|]. split; [|split; [|split; [|split]]].
      * exists ys. split; [split; [exact Id|split; [exact Ta|exact Ex]]|exact Ou].
      * split; [exact Si|]. exists (m_sent g), []. split; [exact W|now left].
      * exact Logic.I.
      * exists []. split; [exact L|now left].
      * split; [exact T|exact Logic.I].
Qed.

Lemma Silent_users o st st' : p_users st' = p_users st -> Silent o st -> Silent o st'.
Proof. unfold Silent. intros ->. auto. Qed.

(* asyncio.wait() returns. *)
Lemma wake_inv exts ls g i out g' : m_pc g = MWaiting i out -> MInv exts ls g ->
  wake X cfg g i out = Some g' -> MInv exts ls g'.
Proof.
  intros Hp ((cls & He) & S0 & (ys & R & O) & W & C & L & T) H. set (st := m_conn g) in *.
  unfold Rc, Outs, Wr, Ln, Th in *. rewrite Hp in *. cbv zeta in *. fold st in R, W.
  destruct R as (pc & So & Hi & Ex & F). destruct W as (Si & ws & rest & W1 & W2).
  assert (rest = []) as -> by (destruct W2 as [W2|[_ W2]]; [exact W2|destruct W2]).
  assert (ws = m_sent g) as -> by (destruct W1 as [-> _]; now rewrite app_nil_r).
  destruct T as [T _].
  assert (Hs : m_stop g = true -> In MEof ls) by (intros Q; apply T; now left).
  destruct L as (held & L1 & L2).
  assert (L : m_typed g = m_sent g ++ match out with Some x => [x] | None => [] end ++ m_inputs g ++ unseen (m_calls g)).
  { destruct out; [now subst held|]. destruct L2 as [-> |[_ []]]. exact L1. }
  clear L1 L2 held.
  assert (Id : (exists r, pc = UDone r) -> Idle (Some i) st).
  { intros (r & ->). split; [exact So|]. intros j pc' c' Hj Hr. exfalso. pose proof (So j pc' c' Hj Hr) as Q. injection Q as <-.
    rewrite Hi in Hj. injection Hj as <- _. destruct Hr as [Q|(w & Q)]; discriminate. }
  unfold wake in H. fold st in H. rewrite Hi in H.
  assert (Fin : forall how, finalize X cfg g how = Some g' -> (exists r, pc = UDone r) -> taken st = ys -> how <> UserStopped ->
    (how = PeerClosed -> drained st) -> MInv exts ls g').
  { intros how Hf Hr Ta Hh Hd.
    apply (finalize_inv exts ls g ys (Some i) how g' (m_sent g) [] (match out with Some x => [x] | None => [] end)); auto.
    - split; [now exists cls|]. split; [exact S0|]. split; [now apply Id|]. split; [exact Ta|]. split; [exact Ex|].
      split; [exact O|]. split; [exact Si|exact T].
    - destruct out; [right; split; [eauto|exact Hh]|now left]. }
  assert (Pend : (forall r, pc <> UDone r) ->
    (if match out with Some _ => true | None => m_stop g end then
       match on_conn X cfg g (LCancel i) with Some g => after_incoming X cfg g i out (m_stop g) | None => None end
     else None) = Some g' -> MInv exts ls g').
  { intros Nd Hw. destruct (match out with Some _ => true | None => m_stop g end); [|discriminate].
    assert (St : step X cfg st (LCancel i) = Some (set_users (replace i (pc, true) (p_users st)) st)).
    { cbn [step]. rewrite Hi. destruct pc; try reflexivity. now contradiction (Nd r). }
    unfold on_conn in Hw. fold st in Hw. rewrite St in Hw. set (st' := set_users _ st) in *.
    assert (Li : (i < length (p_users st))%nat) by (apply nth_error_Some; congruence).
    assert (S1 : Sound cfg st') by exact (Sound_step X cfg _ _ _ _ S0 So St).
    assert (Us : forall j pc' c', nth_error (p_users st') j = Some (pc', c') ->
      (j = i /\ pc' = pc /\ c' = true) \/ (j <> i /\ nth_error (p_users st) j = Some (pc', c'))).
    { intros j pc' c' Hj. cbn [st' p_users set_users] in Hj. destruct (Nat.eq_dec i j) as [<- |Hn].
      - rewrite nth_error_replace_eq in Hj by exact Li. injection Hj as <- <-. now left.
      - rewrite nth_error_replace_neq in Hj by exact Hn. right. split; [congruence|exact Hj]. }
    apply (after_incoming_inv exts ls (with_conn st' g) ys i out (m_stop g) g'); auto.
    split; [exists (cls ++ [LCancel i]); exact (exec_snoc exts cls st _ st' He St)|]. split; [exact S1|].
    split; [|split; [|split; [exact Ex|split; [exact O|split; [|exact T]]]]].
    - split.
      + intros j pc' c' Hj Hr. destruct (Us j pc' c' Hj) as [(-> & _)|(_ & Hj')]; [reflexivity|exact (So j pc' c' Hj' Hr)].
      + intros j pc' c' Hj Hr. destruct (Us j pc' c' Hj) as [(_ & _ & Q)|(Hn & Hj')]; [exact Q|].
        pose proof (So j pc' c' Hj' Hr) as Q. congruence.
    - change (taken st = ys). destruct pc as [[]| | | | | | | | | | | | | | | |r]; cbn [call_at] in F; try contradiction; try exact F; [apply F|].
      now contradiction (Nd r).
    - intros j pc' c' Hj Hn. destruct (Us j pc' c' Hj) as [(-> & -> & _)|(_ & Hj')]; [exact (Si i pc false Hi Hn)|exact (Si j pc' c' Hj' Hn)]. }
  destruct pc as [c0|w|w0 m0| | |op0 src0| | |op0|d0|d0 t0|d0 t0|d0 t0|t0|t0| |r]; try (apply Pend; [discriminate|exact H]).
  destruct r as [|m|w|e]; cbn [call_at] in F; try contradiction.
  - apply (after_incoming_inv exts ls (print (show m) g) (ys ++ [m]) i out (m_stop g) g'); auto.
    split; [now exists cls|]. split; [exact S0|]. split; [apply Id; eauto|]. split; [exact F|]. split; [exact Ex|].
    split; [|split; [exact Si|exact T]]. cbn [print m_out]. rewrite O, map_app. reflexivity.
  - destruct F as [F1 F2].
    assert (D : drained st) by (destruct F2 as [[_ (j & [])]|[D _]]; exact D).
    destruct e; try (apply (Fin Failed H); eauto; discriminate); (apply (Fin PeerClosed H); eauto; discriminate).
Qed.

(* exit_from_event_loop_thread() *)
Lemma exit_main g : m_main g = Reading \/ m_main g = Joining -> (m_main g = Reading -> m_stop g = false) ->
  m_main (exit_from_event_loop_thread g) <> Reading.
Proof.
  intros H S. unfold exit_from_event_loop_thread. destruct (m_stop g) eqn:Es.
  - destruct H as [H|H]; [discriminate (S H)|congruence].
  - destruct H as [H|H]; rewrite H; discriminate.
Qed.
Lemma exit_fields g : let g' := exit_from_event_loop_thread g in
  m_conn g' = m_conn g /\ m_pc g' = m_pc g /\ m_out g' = m_out g /\ m_typed g' = m_typed g /\ m_sent g' = m_sent g /\
  m_inputs g' = m_inputs g /\ unseen (m_calls g') = unseen (m_calls g).
Proof.
  unfold exit_from_event_loop_thread. destruct (m_stop g); [tauto|]. destruct (m_main g); try tauto.
  do 6 (split; [reflexivity|]). unfold end_of_input, unseen. cbn [m_calls with_main with_calls]. rewrite flat_map_app. apply app_nil_r.
Qed.

Lemma Th0_app ls l g : Th0 ls g -> Th0 (ls ++ [l]) g.
Proof.
  intros (T1 & T2 & T3). split; [exact T1|]. split; [exact T2|]. intros Q. apply in_app_iff. left. auto.
Qed.
Lemma Th_app ls l g : Th ls g -> Th (ls ++ [l]) g.
Proof.
  intros [T1 T2]. assert (A : forall y, In y ls -> In y (ls ++ [l])) by (intros; apply in_app_iff; now left). split.
  - destruct (m_pc g); try exact T1; apply Th0_app; exact T1.
  - destruct (m_pc g) as [| | |? ? []|? []| |[]|]; auto.
Qed.
Lemma MInv_app exts ls l g : MInv exts ls g -> MInv exts (ls ++ [l]) g.
Proof.
  intros (H1 & H2 & H3 & H4 & H5 & H6 & H7). do 6 (split; [assumption|]). now apply Th_app.
Qed.

Lemma mstep_inv exts ls g l g' : c_legacy_recv cfg = false -> MInv exts ls g ->
  mstep X cfg uri g l = Some g' -> MInv exts (ls ++ [l]) g'.
Proof.
  intros Leg M H. destruct l as [l| |x| | | | |x| | |]; cbn [mstep] in H.
  - destruct (others l) eqn:Ot; [|discriminate]. unfold on_conn in H.
    destruct (step X cfg (m_conn g) l) as [st'|] eqn:St; [|discriminate]. apply some_inj in H as <-.
    now apply conn_inv.
  - destruct (m_pc g) eqn:Hp; try discriminate. destruct (T_exists (m_conn g)) eqn:Ex; [|discriminate]. apply some_inj in H as <-.
    apply MInv_app. destruct M as (He & S0 & (ys & R & O) & W & C & L & T).
    unfold MInv, Rc, Outs, Wr, Cl, Ln, Th in *. rewrite Hp in *. cbn [m_pc m_conn m_out m_sent m_typed m_inputs m_calls m_main m_stop print with_pc] in *.
    destruct R as [R1 R2]. destruct O as [O1 O2].
    split; [exact He|]. split; [exact S0|]. split; [exists ys; rewrite O1, O2 in *; split; [auto|reflexivity]|].
    split; [|split; [exact Logic.I|split; [|exact T]]].
    + destruct W as (Si & ws & rest & W1 & W2). split; [exact Si|]. exists ws, rest. split; [exact W1|]. destruct W2 as [W2|[_ []]]. now left.
    + destruct L as (held & L1 & L2). exists held. split; [exact L1|]. destruct L2 as [L2|[_ []]]. now left.
  - destruct (m_pc g) eqn:Hp; try discriminate. apply some_inj in H as <-.
    apply MInv_app. destruct M as (He & S0 & (ys & R & O) & W & C & L & T).
    unfold Rc, Outs, Wr, Cl, Ln, Th in *. rewrite Hp in *. cbv zeta in R.
    destruct R as [R1 R2]. destruct O as [O1 O2]. destruct T as [(T1 & T2 & T3) _].
    set (g0 := with_pc MNotConnected _). destruct (exit_fields g0) as (F1 & F2 & F3 & F4 & F5 & F6 & F7).
    unfold MInv, Rc, Outs, Wr, Cl, Ln, Th. rewrite F1, F2, F3, F4, F5, F6, F7. subst g0. cbn [m_pc m_conn m_out m_sent m_typed m_inputs m_calls print with_pc].
    split; [exact He|]. split; [exact S0|]. split; [exists ys; split; [auto|split; [|exact O2]]; exists x; now rewrite O1|].
    split; [|split; [exact Logic.I|split; [|split; [|exact Logic.I]]]].
    + destruct W as (Si & ws & rest & W1 & W2). split; [exact Si|]. exists ws, rest. split; [exact W1|]. destruct W2 as [W2|[_ []]]. now left.
    + destruct L as (held & L1 & L2). exists held. split; [exact L1|]. destruct L2 as [L2|[_ []]]. now left.
    + apply exit_main; [exact T2|]. intros Q. apply T1. exact Q.
  - destruct (m_pc g) as [|prev| | | | | |] eqn:Hp; try discriminate.
    destruct M as ((cls & He) & S0 & (ys & R & O) & W & C & L & T).
    unfold Rc, Outs, Wr, Cl, Ln, Th in *. rewrite Hp in *. cbv zeta in *. destruct R as ([So Ca] & R2 & R3).
    set (st := m_conn g) in *.
    assert (So' : match prev with
             | None => true
             | Some i => match nth_error (p_users st) i with Some (UDone _, _) => true | _ => false end
             end = true -> Sole None st).
    { intros Q j pc c Hj Hr. destruct prev as [i|]; [|exact (So j pc c Hj Hr)]. exfalso.
      pose proof (So j pc c Hj Hr) as Q'. injection Q' as ->. rewrite Hj in Q. destruct Hr as [-> |(w & ->)]; discriminate. }
    destruct (match prev with None => true | Some i => _ end); [|discriminate]. specialize (So' eq_refl).
    unfold on_conn in H. rewrite call_step_ok in H. apply some_inj in H as <-. fold st. set (st' := set_users _ st).
    assert (St : step X cfg st (LCall CallRecv) = Some st') by reflexivity.
    assert (S1 : Sound cfg st') by exact (Sound_step X cfg _ _ _ _ S0 So' St).
    destruct W as (Si & ws & rest & W1 & W2).
    destruct (Silent_step None st _ st' (Sound_waiters _ S0) Si St) as [Q1 Q2]; [intros c Q; injection Q as <-; reflexivity|discriminate|].
    apply MInv_app.
    split; [exists (cls ++ [LCall CallRecv]); exact (exec_snoc exts cls st _ st' He St)|]. split; [exact S1|].
    split; [|split; [|split; [exact Logic.I|split; [exact L|exact T]]]].
    + exists ys. split; [|exact O]. exists (UStart CallRecv). cbn [m_conn with_pc with_conn].
      split; [|split; [apply new_call|split; [exact R3|exact R2]]].
      intros j pc c Hj Hr. cbn [st' p_users set_users] in Hj. destruct (Nat.lt_ge_cases j (length (p_users st))) as [Lt|Ge].
      * rewrite nth_error_app1 in Hj by exact Lt. pose proof (So' j pc c Hj Hr) as Q. discriminate.
      * f_equal. assert (Q : (j < length (p_users st ++ [(UStart CallRecv, false)]))%nat) by (apply nth_error_Some; congruence).
        rewrite app_length in Q. cbn [length] in Q. fold st. lia.
    + split; [exact Q1|]. exists ws, rest. destruct W2 as [W2|[_ []]]. split; [exact W1|now left].
  - destruct (m_pc g) as [| |i [y|]| | | | |] eqn:Hp; try discriminate. destruct (m_inputs g) as [|x rest0] eqn:Hin; [discriminate|].
    apply some_inj in H as <-. apply MInv_app. destruct M as (He & S0 & (ys & R & O) & W & C & L & T).
    unfold MInv, Rc, Outs, Wr, Cl, Ln, Th in *. rewrite Hp in *. cbn [m_pc m_conn m_out m_sent m_typed m_inputs m_calls m_main m_stop with_inputs with_pc] in *.
    split; [exact He|]. split; [exact S0|]. split; [eauto|]. split; [exact W|]. split; [exact Logic.I|]. split; [|exact T].
    destruct L as (held & L1 & L2). destruct L2 as [-> |[_ []]]. exists [x]. rewrite Hin in L1. split; [exact L1|reflexivity].
  - destruct (m_pc g) as [| |i out| | | | |] eqn:Hp; try discriminate. apply MInv_app. now apply (wake_inv exts ls g i out).
  - destruct (m_pc g) as [| | |i j b|k how| | |] eqn:Hp; try discriminate; apply MInv_app;
      destruct M as ((cls & He) & S0 & (ys & R & O) & W & C & L & T);
      unfold Rc, Outs, Wr, Cl, Ln, Th in *; rewrite Hp in *; cbv zeta in *.
    + destruct R as (R1 & R2 & R3). destruct W as (earlier & x & D0 & pc & W1 & W2 & W3). destruct T as [T1 T2].
      destruct L as (held & L1 & L2). destruct L2 as [-> |[_ []]].
      pose proof W2 as (_ & Hj & _). rewrite Hj in H.
      destruct pc as [ | | | | | | | | | | | | | | | |r]; try discriminate.
      destruct (Sending_done j x D0 _ r W2) as [Si Wd].
      assert (M : Mid exts ls g ys (Some i)).
      { split; [now exists cls|]. split; [exact S0|]. split; [exact R1|]. split; [exact R2|]. split; [exact R3|].
        split; [exact O|]. split; [exact Si|exact T1]. }
      assert (W' : (exists e, r = RRaise e) \/ Written (m_conn g) (m_sent g) (m_sent g) []).
      { destruct Wd as [(f & Q1 & Q2)|[Q _]]; [right|now left]. split; [now rewrite app_nil_r|].
        rewrite W1, Q2. apply Forall2_app; [exact W3|]. constructor; [exact Q1|constructor]. }
      assert (Wf : exists ws rest, Written (m_conn g) (m_sent g) ws rest /\ (rest = [] \/ exists y, rest = [y])).
      { destruct Wd as [(f & Q1 & Q2)|[_ Q]].
        - exists (m_sent g), []. split; [|now left]. split; [now rewrite app_nil_r|].
          rewrite W1, Q2. apply Forall2_app; [exact W3|]. constructor; [exact Q1|constructor].
        - exists earlier, [x]. split; [|right; eauto]. split; [exact W1|now rewrite Q]. }
      assert (Ok : (if b then finalize X cfg g UserStopped else Some (with_pc (MLooping (Some i)) g)) = Some g' ->
        Written (m_conn g) (m_sent g) (m_sent g) [] -> MInv exts ls g').
      { intros Hb Wr0. apply (after_incoming_inv exts ls g ys i None b g'); auto. intros ->. exact T2. }
      destruct r as [|m|w|e]; try (apply Ok; [exact H|]; destruct W' as [(e & Q)|Q]; [discriminate|exact Q]).
      destruct Wf as (ws & rest & Q1 & Q2).
      apply (finalize_inv exts ls g ys (Some i) Failed g' ws rest []); auto; try discriminate.
      destruct Q2 as [Q2|Q2]; [now left|right; now split].
    + destruct R as ((cur & R1) & R2 & R3). destruct C as (pc & Hk & C). rewrite Hk in H. destruct T as [T1 T2].
      destruct pc as [ | | | | | | | | | | | | | | | |r]; try discriminate.
      assert (De : forall e, (exists k c, nth_error (p_users (m_conn g)) k = Some (UDone (RRaise e), c)) \/
                     (p_aborted (m_conn g) <> None /\ e = PyExn AttributeError) ->
                   Some (with_pc (MDead e) g) = Some g' -> MInv exts ls g').
      { intros e Ce Q. apply some_inj in Q as <-.
        split; [now exists cls|]. split; [exact S0|]. split; [|split; [|split; [exact Ce|split; [|split; [exact T1|exact Logic.I]]]]].
        - exists ys. split; [split; [now exists cur|exact R2]|exact O].
        - destruct W as (Si & ws & rest & W1 & W2). split; [exact Si|]. exists ws, rest. split; [exact W1|].
          destruct W2 as [W2|[W2 _]]; [now left|right; split; [exact W2|exact Logic.I]].
        - destruct L as (held & L1 & L2). exists held. split; [exact L1|].
          destruct L2 as [L2|[L2 _]]; [now left|right; split; [exact L2|exact Logic.I]]. }
      destruct r as [|m|w|e]; try contradiction; [|apply (De e); [left; eauto|exact H]].
      destruct (p_close (m_conn g)) as [[code reason]|] eqn:Hc; 
        [|apply (De (PyExn AttributeError)); [|exact H]; right; split; [|reflexivity]; destruct S0 as (_ & _ & [_ C0] & En & _); unfold Ended in En;
          destruct C as [_ C]; rewrite C in En; destruct En as [En|En]; [exfalso|exact En];
          destruct C0 as [(? & ? & ? & _ & _ & _ & C0)|[_ C0]]; rewrite Hc in C0; [discriminate|];
          destruct (p_lost (m_conn g)); [discriminate|now apply En]].
      apply some_inj in H as <-.
      set (g0 := with_pc (MExited how) _). destruct (exit_fields g0) as (F1 & F2 & F3 & F4 & F5 & F6 & F7).
      unfold MInv, Rc, Outs, Wr, Cl, Ln, Th. rewrite F1, F2, F3, F4, F5, F6, F7. subst g0. cbn [m_pc m_conn m_out m_sent m_typed m_inputs m_calls print with_pc].
      split; [now exists cls|]. split; [exact S0|].
      split; [exists ys; split; [split; [now exists cur|split; [exact R2|exact R3]]|]|].
      { exists code, reason. split; [exact Hc|]. split; [apply C|]. now rewrite O. }
      split; [exact W|]. split; [exact Logic.I|]. split; [exact L|]. split; [|exact T2].
      destruct T1 as (T3 & T4 & _). apply exit_main; [exact T4|]. intros Q. apply T3. exact Q.
  - destruct (m_main g) eqn:Hm; try discriminate. apply some_inj in H as <-. apply MInv_app.
    destruct M as (He & S0 & R & W & C & L & T). do 5 (split; [assumption|]). split.
    + destruct L as (held & L1 & L2). exists held. split; [|exact L2].
      cbn [typed with_calls m_typed m_sent m_inputs m_calls]. rewrite L1. unfold unseen. rewrite flat_map_app. cbn [flat_map app].
      now rewrite !app_assoc.
    + destruct T as [T1 T2]. split; [|exact T2]. cbn [typed with_calls m_pc m_main m_stop m_calls].
      assert (A : In SetStop (m_calls g ++ [PutLine x]) -> In SetStop (m_calls g)).
      { intros Q. apply in_app_iff in Q as [Q|[Q|[]]]; [exact Q|discriminate]. }
      destruct (m_pc g); try exact T1; destruct T1 as (T3 & T4 & T5);
        (split; [intros Q; destruct (T3 Q) as [Q1 Q2]; split; [exact Q1|auto]|]); (split; [exact T4|]); intros [Q|Q]; apply T5; auto.
  - destruct (m_main g) eqn:Hm; try discriminate. apply some_inj in H as <-.
    destruct M as (He & S0 & R & W & C & L & T). do 5 (split; [assumption|]). split.
    + destruct L as (held & L1 & L2). exists held. split; [|exact L2].
      cbn [end_of_input with_main with_calls m_typed m_sent m_inputs m_calls]. rewrite L1. unfold unseen. rewrite flat_map_app. cbn [flat_map].
      now rewrite !app_nil_r.
    + assert (A : In MEof (ls ++ [MEof])) by (apply in_app_iff; right; now left).
      split; cbn [end_of_input with_main with_calls m_pc m_main m_stop m_calls].
      * destruct (m_pc g); try discriminate; (split; [discriminate|]); (split; [now right|]); auto.
      * destruct (m_pc g) as [| | |? ? []|? []| |[]|]; auto.
  - assert (H' : (m_pc g <> MNotConnected /\ forall how, m_pc g <> MExited how) /\
      match m_calls g with
      | PutLine x :: rest => Some (with_inputs (m_inputs g ++ [x]) (with_calls rest g))
      | SetStop :: rest => Some (with_stop true (with_calls rest g))
      | [] => None
      end = Some g').
    { destruct (m_pc g); try discriminate; (split; [split; discriminate|exact H]). }
    clear H. destruct H' as [[Np1 Np2] H]. apply MInv_app.
    destruct M as (He & S0 & R & W & C & L & [T1 T2]). destruct (m_calls g) as [|[x|] rest] eqn:Hc; try discriminate; apply some_inj in H as <-;
      (do 5 (split; [assumption|])); split.
    + destruct L as (held & L1 & L2). exists held. split; [|exact L2].
      cbn [with_inputs with_calls m_typed m_sent m_inputs m_calls]. rewrite L1, Hc. cbn [unseen flat_map]. now rewrite !app_assoc.
    + split; [|exact T2]. cbn [with_inputs with_calls m_pc m_main m_stop m_calls].
      assert (A : In SetStop rest -> In SetStop (PutLine x :: rest)) by (intros Q; now right).
      destruct (m_pc g); try exact T1; destruct T1 as (T3 & T4 & T5);
        (split; [intros Q; destruct (T3 Q) as [Q1 Q2]; split; [exact Q1|auto]|]); (split; [exact T4|]); intros [Q|Q]; apply T5; auto.
    + destruct L as (held & L1 & L2). exists held. split; [|exact L2].
      cbn [with_stop with_calls m_typed m_sent m_inputs m_calls]. rewrite L1, Hc. reflexivity.
    + split; [|exact T2]. cbn [with_stop with_calls m_pc m_main m_stop m_calls].
      assert (A : In SetStop (SetStop :: rest)) by now left.
      destruct (m_pc g); try (exfalso; now apply Np1); try (exfalso; now apply (Np2 how)); destruct T1 as (T3 & T4 & T5);
        (split; [intros Q; destruct (T3 Q) as [_ Q2]; now contradiction Q2|]); (split; [exact T4|]); auto.
  - assert (H' : (m_pc g = MNotConnected \/ exists how, m_pc g = MExited how) /\ with_main Finished g = g').
    { destruct (m_main g); try discriminate. destruct (m_pc g); try discriminate; apply some_inj in H; split; eauto. }
    clear H. destruct H' as [Hp <-]. apply MInv_app.
    destruct M as (He & S0 & R & W & C & L & [T1 T2]). do 5 (split; [assumption|]). split; [exact L|].
    split; [|exact T2]. cbn [with_main m_pc m_main]. destruct Hp as [-> |(how & ->)]; discriminate.
Qed.

Lemma minitial_inv exts : MInv exts [] (minitial exts).
Proof.
  destruct (GInv_initial X cfg exts) as (S0 & So & _).
  split; [now exists []|]. split; [exact S0|]. split; [|split; [|split; [exact Logic.I|split]]].
  - exists []. split; [|split; reflexivity]. split; [|reflexivity]. split; [exact So|]. intros j pc c Hj. destruct j; discriminate.
  - split; [intros j pc c Hj; destruct j; discriminate|]. exists [], []. split; [split; [reflexivity|constructor]|now left].
  - exists []. split; [reflexivity|now left].
  - split; [|exact Logic.I]. split; [intros _; split; [reflexivity|now intros []]|]. split; [now left|]. intros [Q|[]]; discriminate.
Qed.
Lemma mexec_app g ls1 ls2 :
  mexec X cfg uri g (ls1 ++ ls2) = match mexec X cfg uri g ls1 with Some g => mexec X cfg uri g ls2 | None => None end.
Proof.
  revert g. induction ls1 as [|l ls1 IH]; intros g; [reflexivity|]. cbn [app mexec]. destruct (mstep X cfg uri g l); [apply IH|reflexivity].
Qed.
Lemma mexec_inv exts ls g : c_legacy_recv cfg = false -> mexec X cfg uri (minitial exts) ls = Some g -> MInv exts ls g.
Proof.
  intros Leg. revert g. induction ls as [|l ls IH] using rev_ind; intros g H.
  - apply some_inj in H as <-. apply minitial_inv.
  - rewrite mexec_app in H. destruct (mexec X cfg uri (minitial exts) ls) as [g1|] eqn:H1; [|discriminate].
    cbn [mexec] in H. destruct (mstep X cfg uri g1 l) as [g2|] eqn:H2; [|discriminate]. apply some_inj in H as <-.
    apply (mstep_inv exts ls g1 l g2 Leg); [now apply IH|exact H2].
Qed.
End Facts.
