(* Properties of the interactive client, "python -m websockets <uri>" (C89). *)
From Verif Require Import Base.Prelude Base.PreludeFacts Base.DecimalFacts Model.Streams Model.Frames
  Model.LegacyFraming Model.LegacyProtocol Model.LegacyIter Model.Exceptions Model.Main
  Spec.Rfc6455 Spec.Utf8Spec Spec.Messages Spec.Asyncio Spec.AsyncioIter Spec.Interactive
  Proofs.LegacyPrims Proofs.LegacyFields Proofs.LegacyShapes Proofs.LegacyUsers Proofs.LegacyClose
  Proofs.LegacyQueue Proofs.LegacyMessages Proofs.LegacyRecv Proofs.LegacySend
  Properties.AsyncioState Properties.FrameCodec Properties.AsyncioClosing Proofs.LegacyIterFacts Proofs.MainFacts.
Local Open Scope N_scope.

(* To show that the program can reach a state where P holds *)
Lemma by_interacting cfg uri ls (P : interactive Empty_set -> bool) :
  match mexec no_ext cfg uri (minitial []) ls with Some g => P g | None => false end = true ->
  exists g, running no_ext cfg uri [] ls g /\ P g = true.
Proof.
  unfold running. destruct (mexec no_ext cfg uri (minitial []) ls) as [g|]; [|discriminate].
  intros H. exists g. now split.
Qed.

(* ---- C89 ---- *)

(* The messages taken from the connection were shown, except perhaps the last one. *)
Lemma taken_shown {E} (X : ext_ops E) cfg uri exts ls g ys : MInv X cfg uri exts ls g -> Rc g ys ->
  exists later, taken (m_conn g) = ys ++ later.
Proof.
  intros _ R. assert (G : taken (m_conn g) = ys -> exists later, taken (m_conn g) = ys ++ later)
    by (intros ->; exists []; now rewrite app_nil_r).
  unfold Rc in R. cbv zeta in R. destruct (m_pc g); try (apply G; apply R); try (apply G; now destruct R as (_ & R & _)).
  destruct R as (pc & _ & _ & _ & R). destruct pc as [[]| | | | | | | | | | | | | | | |[]]; cbn [call_at] in R; try contradiction;
    try (apply G; apply R). exists [m]. exact R.
Qed.

(* p_in: the frames received.  Once it's connected, the program shows the messages received, in order, each
   one once: the data frames received are those of the messages that were shown, then those of messages
   that weren't yet, then the frames of a message that isn't complete or waits for room in the queue. *)
Theorem C89_shows_in_order :
  forall E (X : ext_ops E) cfg uri exts ls g,
    running X cfg uri exts ls g -> c_legacy_recv cfg = false ->
    exists done rest shown later,
      data_frames (p_in (m_conn g)) = concat done ++ rest /\ Forall complete_message done /\
      Forall2 carries done (shown ++ later) /\
      match m_pc g with
      | MConnecting => m_out g = []
      | MNotConnected => exists why, m_out g = [not_connected uri why]
      | MExited _ => exists explanation, m_out g = connected uri :: map show shown ++ [closed_with explanation]
      | _ => m_out g = connected uri :: map show shown
      end.
Proof.
  intros E X cfg uri exts ls g H Leg. pose proof (mexec_inv X cfg uri exts ls g Leg H) as M.
  pose proof M as (_ & (_ & R & _) & (ys & Rg & O) & _).
  destruct R as (_ & _ & (done & rest & D1 & D2 & D3 & _) & _).
  destruct (taken_shown X cfg uri exts ls g ys M Rg) as (later & T). fold (taken (m_conn g)) in D3. rewrite T, <- app_assoc in D3.
  exists done, rest, ys, (later ++ p_messages (m_conn g)). split; [exact D1|].
  split; [revert D2; apply Forall_impl; tauto|]. split; [exact D3|]. unfold Outs in O.
  destruct (m_pc g); try exact O; [apply O|apply O|]. destruct O as (code & reason & _ & _ & O). eauto.
Qed.

(* When the program ends because the server closed the connection with a close frame, all messages received
   before this frame were shown, except one that the server didn't finish. *)
Theorem C89_shows_everything :
  forall E (X : ext_ops E) cfg uri exts ls g before f code reason,
    running X cfg uri exts ls g -> c_legacy_recv cfg = false ->
    left (m_pc g) PeerClosed -> p_in (m_conn g) = before ++ [f] -> close_frame f code reason ->
    exists done rest shown goodbye,
      data_frames before = concat done ++ rest /\ (rest = [] \/ unfinished_message rest) /\
      Forall complete_message done /\ Forall2 carries done shown /\
      m_out g = connected uri :: map show shown ++ goodbye /\ (goodbye = [] \/ exists x, goodbye = [closed_with x]).
Proof.
  intros E X cfg uri exts ls g before f code reason H Leg Le Hin Cf.
  destruct (mexec_inv X cfg uri exts ls g Leg H) as (_ & (_ & R & _) & (ys & Rg & O) & _).
  destruct R as (_ & _ & (done & rest & D1 & D2 & D3 & D4) & _).
  assert (Q : taken (m_conn g) = ys /\ drained (m_conn g)).
  { unfold Rc, left in *. cbv zeta in Rg. destruct (m_pc g); try contradiction; destruct Rg as (_ & Q1 & Q2); auto. }
  destruct Q as (T & Td & M). fold (taken (m_conn g)) in D3. rewrite T, M, app_nil_r in D3.
  apply T_done_settled in Td as (e & Td). rewrite Td in D4. cbn [tail] in D4.
  assert (Nd : is_data_b f = false) by (destruct Cf as [Q _]; unfold is_data_b; now rewrite Q).
  assert (G : exists goodbye, m_out g = connected uri :: map show ys ++ goodbye /\ (goodbye = [] \/ exists x, goodbye = [closed_with x])).
  { unfold Outs, left in *. destruct (m_pc g); try contradiction.
    - exists []. rewrite app_nil_r. split; [exact O|now left].
    - destruct O as (c & r & _ & _ & O). eexists. split; [exact O|]. right. eauto. }
  destruct G as (goodbye & G1 & G2). exists done, rest, ys, goodbye.
  split; [|split; [|split; [revert D2; apply Forall_impl; tauto|split; [exact D3|split; [exact G1|exact G2]]]]].
  - rewrite Hin in D1. unfold data_frames in *. rewrite filter_app in D1. cbn [filter] in D1. rewrite Nd, app_nil_r in D1. exact D1.
  - destruct D4 as [D4|[D4|[_ (l & f' & Q1 & Q2)]]]; [now left|now right|exfalso].
    rewrite Hin in Q1. apply app_inj_tail in Q1 as [_ <-]. congruence.
Qed.

(* The lines typed are given to send() in order, each one once; those that weren't yet wait, unless the
   program decided to end, in which case one may be lost.  *)
Theorem C89_sends_in_order :
  forall E (X : ext_ops E) cfg uri exts ls g,
    running X cfg uri exts ls g -> c_legacy_recv cfg = false ->
    exists next, m_typed g = m_sent g ++ next ++ m_inputs g ++ unseen (m_calls g) /\
      (next = [] \/ (exists i x, m_pc g = MWaiting i (Some x) /\ next = [x]) \/
       ((exists x, next = [x]) /\ ~ in_loop (m_pc g) /\ ~ left (m_pc g) UserStopped)).
Proof.
  intros E X cfg uri exts ls g H Leg.
  destruct (mexec_inv X cfg uri exts ls g Leg H) as (_ & _ & _ & _ & _ & (held & L1 & L2) & _).
  exists held. split; [exact L1|]. destruct (m_pc g) as [|prev|i [x|]|i j b|k how| |how|e]; unfold may_lose in L2;
    try (left; destruct L2 as [L2|[_ []]]; exact L2).
  - right. left. eauto.
  - destruct L2 as [L2|[L2 L3]]; [now left|right; right]. split; [exact L2|]. split; [intros []|exact L3].
  - destruct L2 as [L2|[L2 L3]]; [now left|right; right]. split; [exact L2|]. split; [intros []|exact L3].
  - destruct L2 as [L2|[L2 L3]]; [now left|right; right]. split; [exact L2|]. split; intros [].
Qed.

(* Each of them is written in one text frame, and nothing else is sent: the data frames written are
   those of the lines given to send(), in order, except perhaps the last one. *)
Theorem C89_writes_lines :
  forall E (X : ext_ops E) cfg uri exts ls g,
    running X cfg uri exts ls g -> c_legacy_recv cfg = false ->
    exists ws rest, m_sent g = ws ++ rest /\ (length rest <= 1)%nat /\
      Forall2 text_frame ws (map o_frame (datas (p_out (m_conn g)))) /\
      (m_pc g = MConnecting \/ (exists prev, m_pc g = MLooping prev) \/ (exists i out, m_pc g = MWaiting i out) \/
       left (m_pc g) UserStopped \/ left (m_pc g) PeerClosed -> rest = []).
Proof.
  intros E X cfg uri exts ls g H Leg.
  destruct (mexec_inv X cfg uri exts ls g Leg H) as (_ & _ & _ & W & _). unfold Wr in W. cbv zeta in W.
  assert (G : (Silent None (m_conn g) /\ exists ws rest, Written (m_conn g) (m_sent g) ws rest /\
                 (rest = [] \/ (exists x, rest = [x]) /\ may_fail (m_pc g))) ->
    exists ws rest, m_sent g = ws ++ rest /\ (length rest <= 1)%nat /\
      Forall2 text_frame ws (map o_frame (datas (p_out (m_conn g)))) /\
      (m_pc g = MConnecting \/ (exists prev, m_pc g = MLooping prev) \/ (exists i out, m_pc g = MWaiting i out) \/
       left (m_pc g) UserStopped \/ left (m_pc g) PeerClosed -> rest = [])).
  { intros (_ & ws & rest & [W1 W2] & W3). exists ws, rest. split; [exact W1|].
    split; [destruct W3 as [-> |[(x & ->) _]]; cbn [length]; lia|]. split; [exact W2|].
    intros Q. destruct W3 as [W3|[_ W3]]; [exact W3|exfalso]. unfold may_fail, left in *.
    destruct (m_pc g); try contradiction; destruct Q as [Q|[(? & Q)|[(? & ? & Q)|[Q|Q]]]]; try discriminate; try contradiction; congruence. }
  destruct (m_pc g) eqn:Hp; try (apply G; exact W).
  destruct W as (earlier & x & D0 & pc & W1 & W2 & W3).
  pose proof W2 as (_ & _ & Sd0 & F0 & Dj & H1 & Fj).
  assert (A : sends_all (SData (PStr x)) [] (written_by (ByCall j) (m_conn g)) ->
    exists f, text_frame x f /\ map o_frame (datas (p_out (m_conn g))) = map o_frame D0 ++ [f]).
  { intros (op & data & [-> Q1] & Q2). exists (mkframe true TEXT data). split; [exists data; now split|].
    rewrite H1, map_app. f_equal. rewrite (written_datas j (m_conn g) D0 Dj H1 F0 Fj); [exact Q2|]. rewrite Q2. now constructor. }
  assert (B : written_by (ByCall j) (m_conn g) = [] -> datas (p_out (m_conn g)) = D0).
  { intros Q. assert (Q' : map o_frame Dj = []) by (rewrite (written_datas j (m_conn g) D0 Dj H1 F0 Fj); [exact Q|rewrite Q; constructor]).
    rewrite H1. destruct Dj; [now rewrite app_nil_r|discriminate]. }
  assert (Pt : sends_part (SData (PStr x)) [] (written_by (ByCall j) (m_conn g))).
  { destruct pc as [c0|w0|w0 m0| | |op0 [items0 e0|]| | |[op0|]|d0|d0 t0|d0 t0|d0 t0|t0|t0| |[]]; cbn [Sd] in Sd0; try contradiction;
      try (destruct Sd0 as (Q & _); discriminate); try exact Sd0; try (right; left; exact Sd0).
    - left. apply Sd0.
    - left. apply Sd0.
    - right. left. apply Sd0.
    - destruct Sd0 as (? & Q & _). discriminate. }
  destruct Pt as [Q|[Q|[[] _]]].
  - exists earlier, [x]. split; [exact W1|]. split; [apply le_n|]. rewrite (B Q). split; [exact W3|].
    intros [Q'|[(? & Q')|[(? & ? & Q')|[[]|[]]]]]; discriminate.
  - destruct (A Q) as (f & Q1 & Q2). exists (earlier ++ [x]), []. split; [now rewrite app_nil_r|]. split; [cbn [length]; lia|].
    split; [|reflexivity]. rewrite Q2. apply Forall2_app; [exact W3|]. constructor; [exact Q1|constructor].
Qed.

(* When the program ends, it says why: it shows the code and the reason in the close frame received from
   the server, or 1006 if there was none. *)
Theorem C89_says_why :
  forall E (X : ext_ops E) cfg uri exts ls g how,
    running X cfg uri exts ls g -> c_legacy_recv cfg = false -> m_pc g = MExited how ->
    exists before code reason,
      m_out g = before ++ [closed_with (format_close code reason)] /\
      ((exists l f, p_in (m_conn g) = l ++ [f] /\ close_frame f code reason) \/
       (code = 1006%Z /\ reason = [] /\ forall f, In f (p_in (m_conn g)) -> forall c r, ~ close_frame f c r)).
Proof.
  intros E X cfg uri exts ls g how H Leg Hp.
  destruct (mexec_inv X cfg uri exts ls g Leg H) as (_ & (_ & _ & C & _) & (ys & _ & O) & _). unfold Outs in O. rewrite Hp in O.
  destruct O as (code & reason & O1 & O2 & O3). exists (connected uri :: map show ys), code, reason. split; [exact O3|].
  destruct C as (_ & [(l & f & x & C1 & C2 & C3 & C4)|[C1 C2]]).
  - left. exists l, f. split; [exact C1|]. rewrite O1 in C4. injection C4 as <-. now apply close_frame_parses.
  - right. rewrite O1 in C2. destruct (p_lost (m_conn g)); [|discriminate]. injection C2 as -> ->.
    split; [reflexivity|]. split; [reflexivity|]. intros f Hf c r Q. apply close_frame_parses in Q.
    rewrite Forall_forall in C1. exact (C1 f Hf _ Q).
Qed.

(* The explanation identifies the code and the reason. *)
Lemma split_digits (x y a c : str) : Forall (fun d => 48 <= d <= 57) x -> Forall (fun d => 48 <= d <= 57) y ->
  x ++ 32 :: a = y ++ 32 :: c -> x = y /\ a = c.
Proof.
  intros Fx. revert y. induction Fx as [|d x Hd Fx IH]; intros y Fy H.
  - destruct y as [|d y]; [injection H as ->; auto|]. apply Forall_inv in Fy. injection H as <- _. lia.
  - destruct Fy as [|d' y Hd' Fy]; [injection H as -> _; lia|]. injection H as <- H. destruct (IH y Fy H) as [-> ->]. auto.
Qed.
Lemma str_of_N_inj n m : str_of_N n = str_of_N m -> n = m.
Proof. intros H. rewrite <- (str_of_N_value n), <- (str_of_N_value m). now rewrite H. Qed.
Theorem C89_explanations_differ :
  forall code reason code' reason', format_close code reason = format_close code' reason' -> code = code' /\ reason = reason'.
Proof.
  assert (F : exists (ex : Z -> str) (why : str -> str),
    (forall c r, format_close c r = s "code = " ++ str_of_Z c ++ s " (" ++ ex c ++ s "), " ++ why r) /\
    forall r r', why r = why r' -> r = r').
  { exists (fun code => if (3000 <=? code)%Z && (code <? 4000)%Z then s "registered"
      else if (4000 <=? code)%Z && (code <? 5000)%Z then s "private use" else close_codes code),
      (fun reason => match reason with [] => s "no reason" | _ => s "reason = " ++ reason end).
    split; [reflexivity|]. intros [|a r] [|c r'] Q; try reflexivity; try discriminate. now apply app_inv_head in Q. }
  destruct F as (ex & why & F & I). intros code reason code' reason' H. rewrite !F in H. apply app_inv_head in H.
  assert (D : forall n m (u v : str), str_of_N n ++ s " (" ++ u = str_of_N m ++ s " (" ++ v -> n = m /\ u = v).
  { intros n m u v Q. change (s " (") with [32; 40] in Q. cbn [app] in Q.
    apply split_digits in Q as [Q1 Q2]; [|apply str_of_N_digits|apply str_of_N_digits]. injection Q2 as ->.
    split; [now apply str_of_N_inj|reflexivity]. }
  assert (M : forall n (u v : str), s "-" ++ u = str_of_N n ++ v -> False).
  { intros n u v Q. pose proof (str_of_N_digits n) as Q2. pose proof (str_of_N_nonempty n) as Q3.
    destruct (str_of_N n) as [|d l]; [now apply Q3|]. apply Forall_inv in Q2. change (s "-") with [45] in Q. injection Q as <- _. lia. }
  assert (A : code = code' /\ ex code ++ s "), " ++ why reason = ex code' ++ s "), " ++ why reason').
  { destruct code as [|p|p], code' as [|q|q]; unfold str_of_Z in H; change (s "0") with (str_of_N 0) in H;
      rewrite <- ?app_assoc in H;
      try (exfalso; exact (M _ _ _ H)); try (exfalso; exact (M _ _ _ (eq_sym H)));
      first [apply D in H as [Q R]|apply app_inv_head in H; apply D in H as [Q R]]; (split; [congruence|]); exact R. }
  destruct A as [-> A]. apply app_inv_head in A. apply app_inv_head in A. split; [reflexivity|now apply I].
Qed.

(* It ends with the message above only if the server closed the connection, an error happened, or the user
   asked for it. *)
Theorem C89_user_stop :
  forall E (X : ext_ops E) cfg uri exts ls g,
    running X cfg uri exts ls g -> c_legacy_recv cfg = false -> left (m_pc g) UserStopped -> In MEof ls.
Proof.
  intros E X cfg uri exts ls g H Leg Le. destruct (mexec_inv X cfg uri exts ls g Leg H) as (_ & _ & _ & _ & _ & _ & _ & T).
  unfold left in Le. destruct (m_pc g); try contradiction; now subst how.
Qed.

(* Once the thread that manages the connection has ended, the main thread doesn't wait for the user. *)
Theorem C89_main_thread :
  forall E (X : ext_ops E) cfg uri exts ls g,
    running X cfg uri exts ls g -> c_legacy_recv cfg = false -> exited (m_pc g) ->
    m_main g <> Reading /\ (m_main g = Joining -> exists g', mstep X cfg uri g MJoin = Some g' /\ m_main g' = Finished).
Proof.
  intros E X cfg uri exts ls g H Leg Le. destruct (mexec_inv X cfg uri exts ls g Leg H) as (_ & _ & _ & _ & _ & _ & T & _).
  split; [destruct (m_pc g); try contradiction; exact T|]. intros Hm. cbn [mstep]. rewrite Hm.
  destruct (m_pc g); try contradiction; eexists; (split; [reflexivity|reflexivity]).
Qed.

(* The program ends once close() returns.  It doesn't if close() raises an exception, or if the
   transport was aborted and didn't report it in time. *)
Theorem C89_ends :
  forall E (X : ext_ops E) cfg uri exts ls g k how r c,
    running X cfg uri exts ls g -> c_legacy_recv cfg = false ->
    m_pc g = MClosing k how -> nth_error (p_users (m_conn g)) k = Some (UDone r, c) ->
    (forall e, r <> RRaise e) -> p_aborted (m_conn g) = None ->
    exists g', mstep X cfg uri g MResume = Some g' /\ m_pc g' = MExited how.
Proof.
  intros E X cfg uri exts ls g k how r c H Leg Hp Hk Hr Ha.
  destruct (mexec_inv X cfg uri exts ls g Leg H) as (_ & (_ & _ & [_ C0] & En & _) & _ & _ & Cg & _).
  unfold Cl in Cg. rewrite Hp in Cg. destruct Cg as (pc & Q1 & Q2). rewrite Hk in Q1. injection Q1 as <- ->.
  destruct r as [|m|w|e]; try contradiction; [|now contradiction (Hr e)]. destruct Q2 as [_ Q2].
  unfold Ended in En. rewrite Q2 in En. destruct En as [En|En]; [|now contradiction En].
  cbn [mstep]. rewrite Hp, Hk.
  assert (Q : exists code reason, p_close (m_conn g) = Some (code, reason)).
  { destruct C0 as [(? & ? & [code reason] & _ & _ & _ & C0)|[_ C0]]; [eauto|]. destruct (p_lost (m_conn g)); [eauto|now contradiction En]. }
  destruct Q as (code & reason & ->). eexists. split; [reflexivity|].
  match goal with |- m_pc (exit_from_event_loop_thread ?g0) = _ => destruct (exit_fields g0) as (_ & -> & _) end. reflexivity.
Qed.
Theorem C89_dead :
  forall E (X : ext_ops E) cfg uri exts ls g e,
    running X cfg uri exts ls g -> c_legacy_recv cfg = false -> m_pc g = MDead e ->
    (exists k c, nth_error (p_users (m_conn g)) k = Some (UDone (RRaise e), c)) \/
    (p_aborted (m_conn g) <> None /\ e = PyExn AttributeError).
Proof.
  intros E X cfg uri exts ls g e H Leg Hp. destruct (mexec_inv X cfg uri exts ls g Leg H) as (_ & _ & _ & _ & Cg & _).
  unfold Cl in Cg. now rewrite Hp in Cg.
Qed.

(* The four executions below start in the same way. *)
Definition ex_connected : list mlabel := [MConn LOpen; MConn (LC Go); MConn (LK Go); MConnected].
(* The user types two lines, then ^D. *)
Definition ex_stop : list mlabel :=
  ex_connected ++
  [MLine (s "a"); MLine (s "b"); MEof; MCallback; MCallback; MCallback; MLoop; MConn (LUser 0 Go); MGet; MWake;
   MConn (LUser 1 Go); MConn (LUser 1 DrainOk); MConn (LUser 0 Go); MResume; MConn (LUser 2 Go); MConn (LUser 2 DrainOk);
   MConn (LData (bs [136; 2; 3; 232])); MConn (LT Go); MConn (LC Go); MConn (LLost None true); MConn (LC Go);
   MConn (LUser 2 Go); MConn (LUser 2 Go); MResume; MJoin].
(* The server sends two messages and closes the connection, then the user types a line. *)
Definition ex_two_messages : list mlabel :=
  ex_connected ++
  [MLoop; MConn (LUser 0 Go); MConn (LData (bs [129; 1; 97; 129; 1; 98; 136; 2; 3; 232])); MConn (LT Go);
   MConn (LUser 0 Go); MConn (LT Go); MConn (LT Go); MConn (LT DrainOk)].
Definition ex_ignored : list mlabel :=
  ex_two_messages ++
  [MLine (s "x"); MCallback; MGet; MWake; MConn (LUser 1 Go); MConn (LC Go); MConn (LLost None true); MConn (LC Go); MConn (LUser 1 Go);
   MResume; MConn (LUser 2 Go); MConn (LUser 2 Go); MConn (LUser 2 Go); MResume; MJoin].
(* The same, but the user doesn't type anything. *)
Definition ex_shown : list mlabel :=
  ex_two_messages ++
  [MWake; MConn (LC Go); MConn (LLost None true); MConn (LC Go); MLoop; MConn (LUser 1 Go); MWake; MLoop; MConn (LUser 2 Go); MConn (LUser 2 Go); MWake;
   MConn (LUser 3 Go); MConn (LUser 3 Go); MConn (LUser 3 Go); MResume; MJoin].
(* The server closes the connection while the user types ^D. *)
Definition ex_race : list mlabel :=
  ex_connected ++
  [MLoop; MConn (LUser 0 Go); MConn (LData (bs [136; 2; 3; 232])); MConn (LT Go); MConn (LT DrainOk); MConn (LC Go); MConn (LLost None true); MConn (LC Go);
   MConn (LUser 0 Go); MWake; MConn (LUser 1 Go); MConn (LUser 1 Go); MConn (LUser 1 Go); MEof; MResume].
(* The connection breaks while the program closes it. *)
Definition ex_broken : list mlabel :=
  ex_connected ++
  [MEof; MCallback; MLoop; MConn (LUser 0 Go); MWake; MConn (LUser 1 Go); MConn (LLost (Some OtherOsErr) true);
   MConn (LUser 1 (DrainErr OtherOsErr)); MResume].

Example C89_applies :
  exists g, running no_ext ex_config (s "u") [] ex_shown g /\
  match m_pc g, m_out g, m_main g with
  | MExited PeerClosed, [a; m1; m2; e], Finished =>
      str_eqb (terminal m1) (terminal (show (MText (s "a")))) && str_eqb (terminal m2) (terminal (show (MText (s "b")))) &&
      str_eqb (terminal e) (terminal (closed_with (s "code = 1000 (OK), no reason")))
  | _, _, _ => false
  end = true.
Proof. apply by_interacting. vm_compute. reflexivity. Qed.
Example C89_applies_peer_closed :
  exists g, running no_ext ex_config (s "u") [] ex_shown g /\
  match m_pc g, p_in (m_conn g) with
  | MExited PeerClosed, [_; _; f] => match f_opcode f, parse_close (f_data f) with CLOSE, Ok (1000%Z, []) => true | _, _ => false end
  | _, _ => false
  end = true.
Proof. apply by_interacting. vm_compute. reflexivity. Qed.
Example C89_applies_user_stop :
  exists g, running no_ext ex_config (s "u") [] ex_stop g /\
  match m_pc g, m_main g, m_sent g, p_out (m_conn g) with
  | MExited UserStopped, Finished, [[97]], [x; y] =>
      match f_opcode (o_frame x), f_data (o_frame x), f_opcode (o_frame y) with TEXT, [_], CLOSE => true | _, _, _ => false end
  | _, _, _, _ => false
  end = true.
Proof. apply by_interacting. vm_compute. reflexivity. Qed.
(* Once the event loop knows that the user asked to stop, at most one more line is sent and at most one more message is
   awaited; when the program waits for something, it doesn't any more. *)
Definition loops (l : mlabel) : bool := match l with MLoop => true | _ => false end.
Definition may_send (pc : mpc) : nat := match pc with MConnecting | MLooping _ | MWaiting _ _ | MSending _ _ false => 1 | _ => 0 end.
Definition may_loop (pc : mpc) : nat := match pc with MConnecting | MLooping _ | MSending _ _ false => 1 | _ => 0 end.
Lemma stop_step {E} (X : ext_ops E) cfg uri g l g' : mstep X cfg uri g l = Some g' -> m_stop g = true ->
  m_stop g' = true /\
  (exists x, m_sent g' = m_sent g ++ x /\ (length x + may_send (m_pc g') <= may_send (m_pc g))%nat) /\
  (length (filter loops [l]) + may_loop (m_pc g') <= may_loop (m_pc g))%nat.
Proof.
  assert (Same : forall (g g' : interactive E), m_stop g' = m_stop g -> m_sent g' = m_sent g ->
    (may_send (m_pc g') <= may_send (m_pc g))%nat -> (may_loop (m_pc g') <= may_loop (m_pc g))%nat -> m_stop g = true ->
    m_stop g' = true /\ (exists x, m_sent g' = m_sent g ++ x /\ (length x + may_send (m_pc g') <= may_send (m_pc g))%nat) /\
    (may_loop (m_pc g') <= may_loop (m_pc g))%nat).
  { intros g0 g1 A B C D S0. split; [congruence|]. split; [exists []; rewrite app_nil_r; cbn [length]; auto|exact D]. }
  assert (Fin : forall (g g' : interactive E) how, finalize X cfg g how = Some g' -> m_stop g = true ->
    m_stop g' = true /\ (exists x, m_sent g' = m_sent g ++ x /\ (length x + may_send (m_pc g') <= may_send (m_pc g))%nat) /\
    (may_loop (m_pc g') <= may_loop (m_pc g))%nat).
  { intros g0 g1 how H S0. unfold finalize, on_conn in H. destruct (step X cfg (m_conn g0) _); [|discriminate].
    apply some_inj in H as <-. apply Same; [reflexivity|reflexivity|cbn; lia|cbn; lia|exact S0]. }
  assert (After : forall (g g' : interactive E) i out pi po, after_incoming X cfg g i out (m_stop g) = Some g' -> m_stop g = true ->
    m_pc g = MWaiting pi po ->
    m_stop g' = true /\ (exists x, m_sent g' = m_sent g ++ x /\ (length x + may_send (m_pc g') <= may_send (m_pc g))%nat) /\
    (may_loop (m_pc g') <= may_loop (m_pc g))%nat).
  { intros g0 g1 i out pi po H S0 Hp. unfold after_incoming in H. rewrite S0 in H. destruct out as [x|]; [|now apply (Fin _ _ UserStopped)].
    unfold on_conn in H. destruct (step X cfg (m_conn g0) _); [|discriminate]. apply some_inj in H as <-.
    split; [exact S0|]. rewrite Hp. split; [exists [x]; split; [reflexivity|apply le_n]|apply Nat.le_0_l]. }
  intros H S0. destruct l; cbn [mstep] in H; cbn [filter loops length Nat.add].
  - destruct (others l); [|discriminate]. unfold on_conn in H. destruct (step X cfg (m_conn g) l); [|discriminate].
    apply some_inj in H as <-. now apply Same.
  - destruct (m_pc g) eqn:Hp; try discriminate. destruct (T_exists (m_conn g)); [|discriminate]. apply some_inj in H as <-.
    rewrite <- Hp. apply Same; cbn; rewrite ?Hp; cbn; auto.
  - destruct (m_pc g) eqn:Hp; try discriminate. apply some_inj in H as <-. unfold exit_from_event_loop_thread. cbn [m_stop with_pc print]. rewrite S0.
    rewrite <- Hp. apply Same; cbn; rewrite ?Hp; cbn; auto.
  - destruct (m_pc g) eqn:Hp; try discriminate. destruct prev as [i|]; [destruct (nth_error _ i) as [[[] ?]|]; try discriminate|];
      unfold on_conn in H; cbn [step] in H; apply some_inj in H as <-; cbn [m_stop m_sent m_pc with_pc with_conn];
      (split; [exact S0|]; split; [exists []; rewrite app_nil_r; split; [reflexivity|apply le_n]|apply le_n]).
  - destruct (m_pc g) as [| |i [|]| | | | |] eqn:Hp; try discriminate. destruct (m_inputs g); [discriminate|]. apply some_inj in H as <-.
    rewrite <- Hp. apply Same; cbn; rewrite ?Hp; cbn; auto.
  - destruct (m_pc g) eqn:Hp; try discriminate. unfold wake in H.
    assert (Pr : forall m, m_stop (print (show m) g) = true -> m_stop g = true) by auto.
    assert (Pr2 : forall m, after_incoming X cfg (print (show m) g) i out (m_stop g) = Some g' ->
      m_stop g' = true /\ (exists x, m_sent g' = m_sent g ++ x /\ (length x + may_send (m_pc g') <= may_send (m_pc g))%nat) /\
      (may_loop (m_pc g') <= may_loop (m_pc g))%nat).
    { intros m Q. exact (After (print (show m) g) g' i out i out Q S0 Hp). }
    rewrite <- Hp. destruct (nth_error (p_users (m_conn g)) i) as [[pc c]|]; [|discriminate].
    destruct pc; try (destruct (match out with Some _ => true | None => m_stop g end); [|discriminate]; unfold on_conn in H;
      destruct (step X cfg (m_conn g) (LCancel i)) as [st|]; [|discriminate];
      exact (After (with_conn st g) g' i out i out H S0 Hp)).
    destruct r as [|m|w|e]; [exact (Fin _ _ _ H S0)|exact (Pr2 m H)|exact (Fin _ _ _ H S0)|destruct e; exact (Fin _ _ _ H S0)].
  - destruct (m_pc g) eqn:Hp; try discriminate; rewrite <- Hp.
    + destruct (nth_error (p_users (m_conn g)) j) as [[[] ?]|]; try discriminate. destruct r; try exact (Fin _ _ _ H S0);
        (destruct stopping; [exact (Fin _ _ _ H S0)|apply some_inj in H as <-; apply Same; cbn; rewrite ?Hp; cbn; auto]).
    + destruct (nth_error (p_users (m_conn g)) k) as [[[] ?]|]; try discriminate.
      assert (Q : exists pc, (pc = MExited how \/ exists e, pc = MDead e) /\ m_pc g' = pc /\ m_stop g' = m_stop g /\ m_sent g' = m_sent g).
      { destruct r as [|m|w|e]; [| | |apply some_inj in H as <-; exists (MDead e); split; [right; now exists e|split; [reflexivity|split; reflexivity]]];
          (destruct (p_close (m_conn g)) as [[code reason]|]; apply some_inj in H as <-;
          [exists (MExited how)|exists (MDead (PyExn AttributeError))]; (split; [eauto|]); unfold exit_from_event_loop_thread;
          cbn [m_stop with_pc print]; rewrite ?S0; auto). }
      destruct Q as (pc & Q1 & Q2 & Q3 & Q4). apply Same; auto; rewrite Q2; destruct Q1 as [-> |(? & ->)]; cbn; lia.
  - destruct (m_main g); try discriminate. apply some_inj in H as <-. now apply Same.
  - destruct (m_main g); try discriminate. apply some_inj in H as <-. now apply Same.
  - destruct (m_pc g) eqn:Hp; try discriminate; rewrite <- Hp; destruct (m_calls g) as [|[]]; try discriminate;
      apply some_inj in H as <-; apply Same; auto.
  - destruct (m_main g); try discriminate. destruct (m_pc g) eqn:Hp; try discriminate; rewrite <- Hp;
      apply some_inj in H as <-; apply Same; auto.
Qed.
Theorem C89_stops :
  forall E (X : ext_ops E) cfg uri exts ls g, running X cfg uri exts ls g -> c_legacy_recv cfg = false -> m_stop g = true ->
    (forall ls' g', mexec X cfg uri g ls' = Some g' ->
       (exists x, m_sent g' = m_sent g ++ x /\ (length x <= 1)%nat) /\ (length (filter loops ls') <= 1)%nat) /\
    (forall i out, m_pc g = MWaiting i out -> exists g', mstep X cfg uri g MWake = Some g').
Proof.
  intros E X cfg uri exts ls g H Leg S0. split.
  - intros ls' g'. assert (G : forall ls' (g : interactive E), m_stop g = true -> mexec X cfg uri g ls' = Some g' ->
      (exists x, m_sent g' = m_sent g ++ x /\ (length x <= may_send (m_pc g))%nat) /\ (length (filter loops ls') <= may_loop (m_pc g))%nat).
    { clear g H S0 ls ls'. induction ls' as [|l ls' IH]; intros g S0 He; cbn [mexec] in He.
      - apply some_inj in He as <-. split; [exists []; rewrite app_nil_r; split; [reflexivity|apply Nat.le_0_l]|apply Nat.le_0_l].
      - destruct (mstep X cfg uri g l) as [g1|] eqn:Hs; [|discriminate]. destruct (stop_step X cfg uri g l g1 Hs S0) as (S1 & (x & A & B) & C).
        destruct (IH g1 S1 He) as ((y & A' & B') & C'). split.
        + exists (x ++ y). rewrite A', A, app_assoc, app_length. split; [reflexivity|lia].
        + change (l :: ls') with ([l] ++ ls'). rewrite filter_app, app_length. lia. }
    intros He. destruct (G ls' g S0 He) as ((x & A & B) & C). split.
    + exists x. split; [exact A|]. destruct (m_pc g) as [| | |? ? []| | | |]; cbn in B; lia.
    + destruct (m_pc g) as [| | |? ? []| | | |]; cbn in C; lia.
  - intros i out Hp. destruct (mexec_inv X cfg uri exts ls g Leg H) as (_ & _ & (ys & Rg & _) & _).
    unfold Rc in Rg. cbv zeta in Rg. rewrite Hp in Rg. destruct Rg as (pc & Rg). cbn [mstep]. rewrite Hp. unfold wake.
    assert (Q : exists c, nth_error (p_users (m_conn g)) i = Some (pc, c)) by (destruct Rg as (_ & Rg & _); eauto).
    destruct Q as (c & Q). rewrite Q.
    assert (F : forall (g : interactive E) how, exists g', finalize X cfg g how = Some g') by (intros; eexists; reflexivity).
    assert (A : forall (g : interactive E) i out b, exists g', after_incoming X cfg g i out b = Some g').
    { intros g0 i0 [x|] [|]; unfold after_incoming; [eexists; reflexivity|eexists; reflexivity|apply F|eexists; reflexivity]. }
    assert (B : (match out with Some _ => true | None => m_stop g end) = true) by (rewrite S0; now destruct out).
    rewrite B. unfold on_conn. cbn [step]. rewrite Q. destruct pc; cbv iota; try apply A.
    destruct r as [|m|w|e]; [apply F|apply A|apply F|destruct e; apply F].
Qed.
Example C89_applies_stops :
  exists g, running no_ext ex_config (s "u") [] (firstn 11 ex_stop) g /\
  match m_pc g, m_stop g with MLooping _, true | MWaiting _ _, true => true | _, _ => false end = true.
Proof. apply by_interacting. vm_compute. reflexivity. Qed.

Example C89_applies_ends :
  exists g, running no_ext ex_config (s "u") [] (removelast ex_race) g /\
  match m_pc g, nth_error (p_users (m_conn g)) 1, p_aborted (m_conn g) with
  | MClosing 1 PeerClosed, Some (UDone RNone, false), None => true | _, _, _ => false
  end = true.
Proof. apply by_interacting. vm_compute. reflexivity. Qed.
Example C89_applies_config : c_legacy_recv ex_config = false.
Proof. reflexivity. Qed.

(* When the user types ^D, the lines typed before aren't all sent. *)
Theorem C89_typed_lines_refuted :
  exists g, running no_ext ex_config (s "u") [] ex_stop g /\
  match m_pc g, m_main g, m_typed g, m_sent g with MExited UserStopped, Finished, [[97]; [98]], [[97]] => true | _, _, _, _ => false end = true.
Proof. apply by_interacting. vm_compute. reflexivity. Qed.

(* When the user types a line while the server closes the connection, messages that were received before the close
   frame may not be shown: here, "b". *)
Theorem C89_received_messages_refuted :
  exists g, running no_ext ex_config (s "u") [] ex_ignored g /\
  match m_pc g, m_out g, p_messages (m_conn g), m_main g with
  | MExited Failed, [_; m; e], [MText [98]], Finished =>
      str_eqb (terminal m) (terminal (show (MText (s "a")))) && str_eqb (terminal e) (terminal (closed_with (s "code = 1000 (OK), no reason")))
  | _, _, _, _ => false
  end = true.
Proof. apply by_interacting. vm_compute. reflexivity. Qed.

(* When the user types ^D just before the thread that manages the connection ends, the signal interrupts
   thread.join(): the program ends with an exception. *)
Theorem C89_interrupted_refuted :
  exists g, running no_ext ex_config (s "u") [] ex_race g /\
  match m_pc g, m_main g with MExited PeerClosed, Interrupted => true | _, _ => false end = true.
Proof. apply by_interacting. vm_compute. reflexivity. Qed.

(* When close() raises an exception, the program never ends. *)
Lemma dead_stays {E} (X : ext_ops E) cfg uri e ls : forall g g',
  m_pc g = MDead e -> m_main g <> Finished -> mexec X cfg uri g ls = Some g' -> m_pc g' = MDead e /\ m_main g' <> Finished.
Proof.
  induction ls as [|l ls IH]; intros g g' Hp Hm H; cbn [mexec] in H; [apply some_inj in H as <-; auto|].
  destruct (mstep X cfg uri g l) as [g1|] eqn:Hs; [|discriminate]. apply (IH g1 g'); [| |exact H]; clear H IH;
    destruct l; cbn [mstep] in Hs; rewrite ?Hp in Hs; try discriminate.
  all: try (destruct (others l); [|discriminate]; unfold on_conn in Hs; destruct (step X cfg (m_conn g) l); [|discriminate];
            apply some_inj in Hs as <-; assumption).
  all: try (destruct (m_main g) eqn:Hm'; try discriminate; apply some_inj in Hs as <-; cbn; congruence).
  all: try (destruct (m_calls g) as [|[]]; try discriminate; apply some_inj in Hs as <-; cbn; assumption).
Qed.
Theorem C89_ends_refuted :
  exists g, running no_ext ex_config (s "u") [] ex_broken g /\
  m_pc g = MDead (OsError OtherOsErr) /\ m_main g = Joining /\
  forall ls g', mexec no_ext ex_config (s "u") g ls = Some g' -> m_main g' <> Finished /\ ~ exited (m_pc g').
Proof.
  assert (Q : exists g, running no_ext ex_config (s "u") [] ex_broken g /\
    match m_pc g, m_main g with MDead (OsError OtherOsErr), Joining => true | _, _ => false end = true)
    by (apply by_interacting; vm_compute; reflexivity).
  destruct Q as (g & Q1 & Q2). exists g. split; [exact Q1|].
  assert (Q : m_pc g = MDead (OsError OtherOsErr) /\ m_main g = Joining).
  { destruct (m_pc g) as [| | | | | | |[ | | | [] | | ]]; try discriminate Q2; destruct (m_main g); try discriminate Q2; split; reflexivity. }
  destruct Q as [Q3 Q4]. split; [exact Q3|]. split; [exact Q4|]. intros ls g' H.
  destruct (dead_stays no_ext ex_config (s "u") _ ls g g' Q3) with (2 := H) as [H1 H2]; [congruence|].
  split; [exact H2|]. rewrite H1. intros [].
Qed.

(* What is shown doesn't identify the messages received: a text message can look like a binary message, or
   like two messages. *)
Theorem C89_display_refuted :
  (exists m m', m <> m' /\ show m = show m') /\
  (exists m m1 m2, terminal (show m) = terminal (show m1) ++ terminal (show m2)).
Proof.
  split.
  - exists (MText (s "(binary) 00")), (MBinary (bs [0])). split; [discriminate|]. vm_compute. reflexivity.
  - exists (MText (s "a" ++ [10] ++ esc (s "8") ++ esc (s "[B") ++ esc (s "7") ++ [10] ++ esc (s "[A") ++ esc (s "[L") ++ s "< b")),
      (MText (s "a")), (MText (s "b")). vm_compute. reflexivity.
Qed.

Print Assumptions C89_shows_in_order.
Print Assumptions C89_shows_everything.
Print Assumptions C89_sends_in_order.
Print Assumptions C89_writes_lines.
Print Assumptions C89_says_why.
Print Assumptions C89_explanations_differ.
Print Assumptions C89_user_stop.
Print Assumptions C89_stops.
Print Assumptions C89_main_thread.
Print Assumptions C89_ends.
Print Assumptions C89_dead.
Print Assumptions C89_typed_lines_refuted.
Print Assumptions C89_received_messages_refuted.
Print Assumptions C89_interrupted_refuted.
Print Assumptions C89_ends_refuted.
Print Assumptions C89_display_refuted.
