(* The two phases of the life of a server or client connection: before and after the parser
   has read the opening handshake. *)
From Verif Require Import Base.Prelude Base.PreludeFacts Model.Datastructures Model.Streams Model.Http11 Model.Frames
  Model.Connection Spec.History Proofs.StreamsFacts Proofs.FramesFacts Proofs.ParserFacts Proofs.AtomicFacts Proofs.ConnectionFacts.

Section Safe.
Context {S : Type}.

(* Each state assigned by g is in relation R with the one before, which g has just read: o. *)
Fixpoint safe {A} (R : S -> S -> Prop) (o : option S) (g : gen S A) : Prop :=
  match g with
  | GRet _ | GRaise _ => True
  | GReadLine _ k => forall x, safe R None (k x)
  | GReadExact _ k => forall x, safe R None (k x)
  | GReadToEof k => forall x, safe R None (k x)
  | GAtEof k => forall x, safe R None (k x)
  | GGet k => forall c, safe R (Some c) (k c)
  | GPut y k => match o with Some c => R c y | None => False end /\ safe R (Some y) k
  | GYield k => safe R None k
  end.
Definition reads_as (o : option S) (c : S) : Prop := match o with Some c0 => c0 = c | None => True end.

Lemma run_safe {A} (R : S -> S -> Prop) (g : gen S A) : (forall c, R c c) -> (forall x y z, R x y -> R y z -> R x z) ->
  forall r c o, safe R o g -> reads_as o c ->
  match run g r c with ODone _ _ c' => R c c' | OFail _ _ c' => R c c' | OSusp g' _ c' => R c c' /\ safe R None g' end.
Proof.
  intros Rr Rt. induction g as [a|e|p k IH|n k IH|k IH|k IH|k IH|y k IH|k IH]; intros r c o Sf Oc; cbn [run safe] in *; auto.
  - destruct (find_lf_from p (r_buffer r)); [now apply (IH _ _ _ None)|]. destruct (r_eof r); [now apply (IH _ _ _ None)|]. cbn [safe]. auto.
  - destruct (n <? 0)%Z; [now apply (IH _ _ _ None)|]. destruct (lenZ (r_buffer r) <? n)%Z; [|now apply (IH _ _ _ None)].
    destruct (r_eof r); [now apply (IH _ _ _ None)|]. cbn [safe]. auto.
  - destruct (r_eof r); [now apply (IH _ _ _ None)|]. cbn [safe]. auto.
  - destruct (r_buffer r); [destruct (r_eof r); [now apply (IH _ _ _ None)|]|now apply (IH _ _ _ None)]. cbn [safe]. auto.
  - apply (IH _ _ _ (Some c)); auto. reflexivity.
  - destruct o as [c0|]; [|tauto]. cbn in Oc. subst c0. destruct Sf as [Ry Sf]. specialize (IH r y (Some y) Sf eq_refl).
    destruct (run k r y); try (eapply Rt; eassumption). split; [eapply Rt; [eassumption|apply IH]|apply IH].
Qed.

Definition final {A} (g : gen S A) : Prop := match g with GRet _ | GRaise _ => True | _ => False end.

(* In the same way, until a state is assigned that is in relation T. *)
Fixpoint safe2 {A} (R T : S -> S -> Prop) (o : option S) (g : gen S A) : Prop :=
  match g with
  | GRet _ => False
  | GRaise _ => True
  | GReadLine _ k => forall x, safe2 R T None (k x)
  | GReadExact _ k => forall x, safe2 R T None (k x)
  | GReadToEof k => forall x, safe2 R T None (k x)
  | GAtEof k => forall x, safe2 R T None (k x)
  | GGet k => forall c, safe2 R T (Some c) (k c)
  | GPut y k => match o with Some c => (R c y /\ safe2 R T (Some y) k) \/ (T c y /\ final k) | None => False end
  | GYield k => safe2 R T None k
  end.
Definition then_ (R T : S -> S -> Prop) (c c' : S) : Prop := exists c1, R c c1 /\ T c1 c'.

Lemma run_safe2 {A} (R T : S -> S -> Prop) (g : gen S A) : (forall c, R c c) -> (forall x y z, R x y -> R y z -> R x z) ->
  forall r c o, safe2 R T o g -> reads_as o c ->
  match run g r c with
  | ODone _ _ c' => then_ R T c c'
  | OFail _ _ c' => R c c' \/ then_ R T c c'
  | OSusp g' _ c' => R c c' /\ safe2 R T None g'
  end.
Proof.
  intros Rr Rt.
  assert (Rc : forall x y z, R x y -> then_ R T y z -> then_ R T x z) by (intros x y z H (c1 & H1 & H2); exists c1; eauto).
  induction g as [a|e|p k IH|n k IH|k IH|k IH|k IH|y k IH|k IH]; intros r c o Sf Oc; cbn [run safe2] in *; auto.
  - contradiction.
  - destruct (find_lf_from p (r_buffer r)); [now apply (IH _ _ _ None)|]. destruct (r_eof r); [now apply (IH _ _ _ None)|]. cbn [safe2]. auto.
  - destruct (n <? 0)%Z; [now apply (IH _ _ _ None)|]. destruct (lenZ (r_buffer r) <? n)%Z; [|now apply (IH _ _ _ None)].
    destruct (r_eof r); [now apply (IH _ _ _ None)|]. cbn [safe2]. auto.
  - destruct (r_eof r); [now apply (IH _ _ _ None)|]. cbn [safe2]. auto.
  - destruct (r_buffer r); [destruct (r_eof r); [now apply (IH _ _ _ None)|]|now apply (IH _ _ _ None)]. cbn [safe2]. auto.
  - apply (IH _ _ _ (Some c)); auto. reflexivity.
  - destruct o as [c0|]; [|tauto]. cbn in Oc. subst c0. destruct Sf as [[Ry Sf]|[Ty F]].
    + specialize (IH r y (Some y) Sf eq_refl). destruct (run k r y); [split; [eapply Rt; [eassumption|apply IH]|apply IH]|eauto|].
      destruct IH; eauto.
    + assert (TT : then_ R T c y) by (exists c; auto). destruct k; try contradiction; cbn [run]; auto.
Qed.

Lemma safe2_gbind {A B} (R T : S -> S -> Prop) (g : gen S A) (k : A -> gen S B) : pure_reads g -> (forall a, safe2 R T None (k a)) ->
  safe2 R T None (gbind g k).
Proof. intros P K. induction g; cbn [gbind safe2 pure_reads] in *; auto; contradiction. Qed.
Lemma safe_gbind_pure {A B} (R : S -> S -> Prop) (g : gen S A) (k : A -> gen S B) : pure_reads g ->
  (forall a o, safe R o (k a)) -> forall o, safe R o (gbind g k).
Proof. intros P K. induction g; intros o; cbn [gbind safe pure_reads] in *; auto; contradiction. Qed.
Lemma safe_gbind {A B} (R : S -> S -> Prop) (g : gen S A) (k : A -> gen S B) o : safe R o g -> (forall a o, safe R o (k a)) ->
  safe R o (gbind g k).
Proof.
  intros P K. revert o P. induction g; intros o P; cbn [gbind safe] in *; auto. destruct P. split; auto.
Qed.
End Safe.

Section Conn.
Context {E : Type} (X : ext_ops E).
Implicit Type c : conn E.

Definition quiet c c' : Prop := c_events c' = c_events c /\ (c_state c' = OPEN -> c_state c = OPEN).
Definition frames_only c c' : Prop :=
  (exists fs, c_events c' = c_events c ++ map EvFrame fs) /\ (c_state c' = OPEN -> c_state c = OPEN).

Lemma quiet_refl c : quiet c c. Proof. split; auto. Qed.
Lemma quiet_trans x y z : quiet x y -> quiet y z -> quiet x z.
Proof. intros [A B] [C D]. split; [congruence|auto]. Qed.
Lemma quiet_frames c c' : quiet c c' -> frames_only c c'.
Proof. intros [A B]. split; [exists []; now rewrite app_nil_r|exact B]. Qed.
Lemma frames_refl c : frames_only c c. Proof. apply quiet_frames, quiet_refl. Qed.
Lemma frames_trans x y z : frames_only x y -> frames_only y z -> frames_only x z.
Proof.
  intros [[fs A] B] [[gs C] D]. split; [|auto]. exists (fs ++ gs). rewrite C, A, map_app, app_assoc. reflexivity.
Qed.

Ltac q := split; cbn; auto; congruence.
Lemma mseq_quiet (f g : @meth E) c : (forall c, quiet c (fst (f c))) -> (forall c, quiet c (fst (g c))) -> quiet c (fst (mseq f g c)).
Proof.
  intros F G. unfold mseq. specialize (F c). destruct (f c) as [c' [[]|e]]; [|exact F]. cbn [fst] in F. eapply quiet_trans; [exact F|apply G].
Qed.
Lemma send_eof_quiet c : quiet c (fst (send_eof c)).
Proof. unfold send_eof. destruct (c_eof_sent c); q. Qed.
Lemma send_frame_quiet f c : quiet c (fst (send_frame X f c)).
Proof.
  unfold send_frame. destruct (c_state c) eqn:Sc; try q.
  destruct (serialize X (c_exts c) f (is_client (c_side c)) (key_bytes (c_keys c (c_draws c)))) as [ex [d|e]]; [destruct (is_client (c_side c))|]; q.
Qed.
Lemma set_closing_quiet c : quiet c (set_state c CLOSING).
Proof. split; cbn; [reflexivity|discriminate]. Qed.
Lemma start_closing_quiet c : quiet c (fst (start_closing c)).
Proof.
  apply mseq_quiet; intros c'; [apply set_closing_quiet|]. destruct (is_server (c_side c')); [apply send_eof_quiet|apply quiet_refl].
Qed.
Lemma fail_quiet code reason c : quiet c (fst (fail_connection X code reason c)).
Proof.
  apply mseq_quiet; intros c'.
  - destruct (negb _ && _)%bool; [|apply quiet_refl]. destruct (serialize_close code reason); [|apply quiet_refl].
    apply mseq_quiet; [apply send_frame_quiet|]. intros c2. apply set_closing_quiet.
  - destruct (c_eof_sent c'); [apply quiet_refl|apply send_eof_quiet].
Qed.
Lemma send_close_quiet code reason c : quiet c (fst (send_close X code reason c)).
Proof.
  unfold send_close. destruct (c_expect_cont c); [apply quiet_refl|]. destruct (match code with None => _ | Some _ => _ end); [|apply quiet_refl].
  apply mseq_quiet; [apply send_frame_quiet|apply start_closing_quiet].
Qed.
Lemma process_frame_quiet f c : quiet c (fst (process_frame X f c)).
Proof.
  unfold process_frame. destruct (f_opcode f).
  1-3: destruct (c_close_rcvd c); [apply quiet_refl|]; destruct (c_cur_size c); try apply quiet_refl; destruct (f_fin f); q.
  - destruct (parse_close (f_data f)) as [[code reason]|e]; [|q].
    destruct (c_cur_size _); [q|]. destruct (is_open _); [|q].
    eapply quiet_trans; [|apply mseq_quiet; [apply send_frame_quiet|apply start_closing_quiet]]. q.
  - destruct (c_close_rcvd c); [apply quiet_refl|apply send_frame_quiet].
  - apply quiet_refl.
Qed.
Lemma meth_quiet k f c : meth_of X k = Some f -> quiet c (fst (f c)).
Proof.
  assert (SX : forall f x c, quiet c (fst (send_frame X f (set_expect_cont c x)))).
  { intros f0 x c0. eapply quiet_trans; [|apply send_frame_quiet]. q. }
  destruct k; cbn [meth_of]; intros H; try discriminate H; apply some_inj in H; subst f.
  - unfold send_continuation. destruct (negb _); [apply quiet_refl|apply SX].
  - unfold send_text. destruct (c_expect_cont c); [apply quiet_refl|apply SX].
  - unfold send_binary. destruct (c_expect_cont c); [apply quiet_refl|apply SX].
  - apply send_close_quiet.
  - apply send_frame_quiet.
  - apply send_frame_quiet.
Qed.

Lemma safe_gmeth (R : conn E -> conn E -> Prop) (m : @meth E) o : (forall c, R c (fst (m c))) -> safe R o (gmeth m).
Proof. intros H. unfold gmeth. cbn [safe]. intros c. specialize (H c). destruct (m c) as [c' [u|e]]; cbn; auto. Qed.

Lemma parse_body_safe o : safe frames_only o (parse_body X).
Proof.
  unfold parse_body. cbn [at_eof get_state gbind safe]. intros eof c. cbn [gbind]. destruct eof.
  - destruct (c_close_rcvd c); [|exact I]. apply safe_gbind; [|intros; exact I].
    destruct (c_eof_sent c); [exact I|]. apply safe_gmeth. intros c'. apply quiet_frames, send_eof_quiet.
  - apply safe_gbind.
    + unfold parse_frame. apply safe_gbind_pure; [apply pure_parse_wire|]. intros f0 o'. cbn [get_state gbind safe]. intros c'. cbn [gbind].
      destruct (decode_reversed X (c_exts c') f0 (next_max_size c)) as [ex r].
      cbn [put_state gbind safe]. split; [apply quiet_frames; q|]. destruct r as [f|e]; [|exact I]. cbn [glift gbind]. destruct (check f); exact I.
    + intros f o'. apply safe_gbind; [apply safe_gmeth; intros c'; apply quiet_frames, process_frame_quiet|].
      intros _ o2. apply safe_gmeth. intros c'. split; cbn; auto. exists [f]. reflexivity.
Qed.

(* ---- machines ---- *)

Section Machine.
(* what the parser does when it has read the handshake *)
Variable T : conn E -> conn E -> Prop.

Definition handshaking (m : machine E) : Prop :=
  match m_parser m with PRun g => safe2 quiet T None g | PDead => True end.
Definition handshaken (m : machine E) : Prop :=
  match m_parser m with PRun g => safe frames_only None g | PDead => True end.

Lemma step_handshaken m : handshaken m ->
  handshaken (fst (step_parser X m)) /\ frames_only (m_conn m) (m_conn (fst (step_parser X m))).
Proof.
  intros H. rewrite step_parser_eq. unfold handshaken in *. destruct (m_parser m) as [g|] eqn:Pm; [|cbn [fst]; rewrite Pm; split; [exact I|apply frames_refl]].
  assert (R : forall f (g : gen (conn E) unit) r c, safe frames_only None g ->
     match run_parser X f g r c with
     | Some (OSusp g' _ c') => safe frames_only None g' /\ frames_only c c'
     | Some (OFail _ _ c') => frames_only c c'
     | _ => True end).
  { clear. induction f as [|f IH]; intros g r c Sg; cbn [run_parser]; [exact I|].
    pose proof (run_safe frames_only g frames_refl frames_trans r c None Sg I) as R.
    destruct (run g r c) as [g' r' c'|a r' c'|e r' c']; [tauto| |exact R].
    specialize (IH (parse_body X) r' c' (parse_body_safe None)). destruct (run_parser X f _ r' c') as [[g2 r2 c2|a2 r2 c2|e r2 c2]|]; auto.
    - destruct IH. split; [auto|]. eapply frames_trans; eassumption.
    - eapply frames_trans; eassumption. }
  unfold parse_all. match goal with |- context [run_parser X ?f _ _ _] => specialize (R f g (m_reader m) (m_conn m) H) end.
  destruct (run_parser X _ g (m_reader m) (m_conn m)) as [[g' r' c'|a r' c'|e r' c']|]; cbn [fst m_parser m_conn]; auto.
  - rewrite Pm. split; [exact H|apply frames_refl].
  - destruct (close_code_for e) as [code reason]. pose proof (fail_quiet code reason c') as F.
    destruct (fail_connection X code reason c') as [c2 [u|e2]]; cbn [fst m_parser m_conn] in *;
      (split; [exact I|]; eapply frames_trans; [exact R|now apply quiet_frames]).
  - rewrite Pm. split; [exact H|apply frames_refl].
Qed.

(* the handshake is read, then frames *)
Definition leaves c c' : Prop := exists c1 c2, quiet c c1 /\ T c1 c2 /\ frames_only c2 c'.

Lemma step_handshaking m : handshaking m ->
  let m' := fst (step_parser X m) in
  (handshaking m' /\ quiet (m_conn m) (m_conn m')) \/ (handshaken m' /\ leaves (m_conn m) (m_conn m')).
Proof.
  intros H m'. subst m'. rewrite step_parser_eq. unfold handshaking, handshaken in *.
  destruct (m_parser m) as [g|] eqn:Pm; [|left; cbn [fst]; rewrite Pm; split; [exact I|apply quiet_refl]].
  assert (R2 : forall f (g : gen (conn E) unit) r c, safe frames_only None g ->
     match run_parser X f g r c with
     | Some (OSusp g' _ c') => safe frames_only None g' /\ frames_only c c'
     | Some (OFail _ _ c') => frames_only c c'
     | _ => True end).
  { clear. induction f as [|f IH]; intros g r c Sg; cbn [run_parser]; [exact I|].
    pose proof (run_safe frames_only g frames_refl frames_trans r c None Sg I) as R.
    destruct (run g r c) as [g' r' c'|a r' c'|e r' c']; [tauto| |exact R].
    specialize (IH (parse_body X) r' c' (parse_body_safe None)). destruct (run_parser X f _ r' c') as [[g2 r2 c2|a2 r2 c2|e r2 c2]|]; auto.
    - destruct IH. split; [auto|]. eapply frames_trans; eassumption.
    - eapply frames_trans; eassumption. }
  assert (R : forall f r c, match run_parser X f g r c with
     | Some (OSusp g' _ c') => (safe2 quiet T None g' /\ quiet c c') \/ (safe frames_only None g' /\ leaves c c')
     | Some (OFail _ _ c') => quiet c c' \/ leaves c c'
     | _ => True end).
  { intros f r c. destruct f as [|f]; [exact I|]. cbn [run_parser].
    pose proof (run_safe2 quiet T g quiet_refl quiet_trans r c None H I) as R.
    destruct (run g r c) as [g' r' c'|a r' c'|e r' c']; [left; tauto| |].
    2:{ destruct R as [R|(c1 & A & B)]; [now left|right]. exists c1, c'. auto using frames_refl. }
    destruct R as (c1 & A & B). specialize (R2 f (parse_body X) r' c' (parse_body_safe None)).
    destruct (run_parser X f _ r' c') as [[g2 r2 c2|a2 r2 c2|e r2 c2]|]; auto.
    - destruct R2. right. split; [auto|]. exists c1, c'. auto.
    - right. exists c1, c'. auto. }
  unfold parse_all. match goal with |- context [run_parser X ?f _ _ _] => specialize (R f (m_reader m) (m_conn m)) end.
  destruct (run_parser X _ g (m_reader m) (m_conn m)) as [[g' r' c'|a r' c'|e r' c']|]; cbn [fst m_parser m_conn]; auto.
  - left. rewrite Pm. split; [exact H|apply quiet_refl].
  - destruct (close_code_for e) as [code reason]. pose proof (fail_quiet code reason c') as F.
    destruct (fail_connection X code reason c') as [c2 [u|e2]]; cbn [fst m_parser m_conn] in *;
      (destruct R as [R|(c1 & c3 & A & B & D)];
       [left; split; [exact I|eapply quiet_trans; eassumption]|
        right; split; [exact I|]; exists c1, c3; split; [exact A|split; [exact B|]]; eapply frames_trans; [exact D|now apply quiet_frames]]).
  - left. rewrite Pm. split; [exact H|apply quiet_refl].
Qed.

(* A call runs the parser, changes the connection quietly, or drains events. *)
Lemma call_cases m k : let m' := fst (do_call X m k) in let out := delivered_by (snd (do_call X m k)) in
  (exists r, m' = fst (step_parser X (Machine (m_conn m) r (m_parser m) (m_exc m))) /\ out = []) \/
  (exists c', m' = Machine c' (m_reader m) (m_parser m) (m_exc m) /\ quiet (m_conn m) c' /\ out = []) \/
  (m' = Machine (set_events (m_conn m) []) (m_reader m) (m_parser m) (m_exc m) /\ out = c_events (m_conn m)).
Proof.
  assert (M : forall f, meth_of X k = Some f ->
    exists c', fst (on_conn m f) = Machine c' (m_reader m) (m_parser m) (m_exc m) /\ quiet (m_conn m) c' /\ delivered_by (snd (on_conn m f)) = []).
  { intros f Hf. pose proof (meth_quiet k f (m_conn m) Hf) as Q. unfold on_conn. destruct (f (m_conn m)) as [c' [[]|e]]; exists c'; cbn in *; auto. }
  assert (Id : m = Machine (m_conn m) (m_reader m) (m_parser m) (m_exc m)) by now destruct m.
  unfold do_call. destruct k; try (right; left; apply M; reflexivity).
  - unfold receive_data. destruct (feed_data (m_reader m) data) as [r|e].
    + left. exists r. destruct (step_parser X _) as [m' [[]|e]]; auto.
    + right; left. exists (m_conn m). cbn. auto using quiet_refl.
  - unfold receive_eof. destruct (feed_eof (m_reader m)) as [r|e].
    + left. exists r. destruct (step_parser X _) as [m' [[]|e]]; auto.
    + right; left. exists (m_conn m). cbn. auto using quiet_refl.
  - right; right. cbn. auto.
  - right; left. exists (set_writes (m_conn m) []). cbn. split; [reflexivity|]. split; [split; auto|reflexivity].
Qed.

(* The events delivered so far, and the connection: before and after the handshake is read. *)
Variable C0 : conn E -> Prop.
Variable C1 : list event -> conn E -> Prop.
Definition in_phase (pe : list event) (m : machine E) : Prop :=
  (handshaking m /\ pe = [] /\ c_events (m_conn m) = [] /\ C0 (m_conn m)) \/ (handshaken m /\ C1 pe (m_conn m)).

Hypothesis C0_quiet : forall c c', quiet c c' -> C0 c -> C0 c'.
Hypothesis C01 : forall c c', C0 c -> c_events c = [] -> T c c' -> C1 [] c'.
Hypothesis C1_frames : forall pe c c', frames_only c c' -> C1 pe c -> C1 pe c'.
Hypothesis C1_drain : forall pe c, C1 pe c -> C1 (pe ++ c_events c) (set_events c []).

Lemma in_phase_step pe m r : in_phase pe m ->
  in_phase pe (fst (step_parser X (Machine (m_conn m) r (m_parser m) (m_exc m)))).
Proof.
  intros [(H & -> & He & H0)|(H & H1)].
  - destruct (step_handshaking (Machine (m_conn m) r (m_parser m) (m_exc m)) H) as [[A B]|[A B]]; cbn [m_conn] in B.
    + left. split; [exact A|]. split; [reflexivity|]. split; [destruct B; congruence|eauto].
    + right. split; [exact A|]. destruct B as (c1 & c2 & B1 & B2 & B3). eapply C1_frames; [exact B3|].
      eapply C01; [eapply C0_quiet; [exact B1|exact H0]| |exact B2]. destruct B1; congruence.
  - right. destruct (step_handshaken (Machine (m_conn m) r (m_parser m) (m_exc m)) H) as [A B]. split; [exact A|].
    eapply C1_frames; [exact B|exact H1].
Qed.
Lemma in_phase_quiet pe m c' : in_phase pe m -> quiet (m_conn m) c' ->
  in_phase pe (Machine c' (m_reader m) (m_parser m) (m_exc m)).
Proof.
  intros [(H & -> & He & H0)|(H & H1)] Q.
  - left. split; [exact H|]. split; [reflexivity|]. cbn [m_conn]. split; [destruct Q; congruence|eauto].
  - right. split; [exact H|]. cbn [m_conn]. eapply C1_frames; [apply quiet_frames; exact Q|exact H1].
Qed.
Lemma in_phase_call pe m k : in_phase pe m -> in_phase (pe ++ delivered_by (snd (do_call X m k))) (fst (do_call X m k)).
Proof.
  intros I0. destruct (call_cases m k) as [(r & E1 & E2)|[(c' & E1 & Q & E2)|(E1 & E2)]]; rewrite E1, E2, ?app_nil_r.
  - now apply in_phase_step.
  - now apply in_phase_quiet.
  - destruct I0 as [(H & -> & He & H0)|(H & H1)].
    + left. rewrite He. split; [exact H|]. split; [reflexivity|]. split; [reflexivity|]. cbn [m_conn].
      eapply C0_quiet; [|exact H0]. split; cbn; auto.
    + right. split; [exact H|]. cbn [m_conn]. now apply C1_drain.
Qed.
End Machine.
End Conn.
