(* Before a connection opens, it doesn't use its extensions; so they may as well be set when the
   connection is created. *)
From Verif Require Import Base.Prelude Base.PreludeFacts Model.Streams Model.Frames Model.Http11 Model.Handshake Model.Server
  Model.LegacyHandshake Model.LegacyFraming Model.LegacyProtocol Model.LegacyServer
  Proofs.LegacyPrims Proofs.LegacyShapes Proofs.LegacyUsers Proofs.LegacyServerFacts Proofs.LegacyClose.
Local Open Scope N_scope.

Section Bridge.
Context {E : Type} (X : ext_ops E) (cfg : config) (x : list E).
Implicit Type st : conn E.
Notation sx := (set_exts x).
Definition sx1 {A} (r : conn E * A) : conn E * A := (sx (fst r), snd r).
Definition sxo (r : option (conn E)) : option (conn E) := match r with Some st => Some (sx st) | None => None end.

Ltac norm :=
  cbv beta iota zeta delta [set_exts set_close set_lost set_users set_T set_Tcancel set_K set_Kcancel set_C set_pop set_put set_frag set_pops set_puts set_frags
    set_closing set_eof_written set_aborted set_reader set_delivered set_now set_messages set_out set_state set_pings set_pongs
    set_user return_ raise_ sx1 sxo fst snd T_exists T_done is_lost deadline expired
    p_exts p_users p_T p_Tcancel p_K p_Kcancel p_C p_pop p_put p_frag p_pops p_puts p_frags p_closing p_eof_written p_aborted p_reader
    p_delivered p_now p_messages p_out p_state p_pings p_pongs p_close p_lost p_in].
Ltac split_all := repeat match goal with
  | |- ?a = ?a => reflexivity
  | |- context [match ?e with _ => _ end] => destruct e
  end; try reflexivity.
Ltac same f := intros; destruct_st; unfold f; norm; split_all
with destruct_st := repeat match goal with st : conn E |- _ => destruct st end.

Lemma cancel_T_x st : cancel_T (sx st) = sx (cancel_T st).
Proof. same @cancel_T. Qed.
Lemma Pre_closed st : Pre st -> is_open (p_state st) = false.
Proof. now intros [-> | ->]. Qed.
Lemma fail_x st code : Pre st -> fail_connection X cfg (sx st) code = sx1 (fail_connection X cfg st code).
Proof.
  intros P. unfold fail_connection. rewrite cancel_T_x. destruct (cancel_T_shape st) as [b ->].
  change (p_state (sx (set_Tcancel b st))) with (p_state st). change (p_state (set_Tcancel b st)) with (p_state st).
  rewrite (Pre_closed _ P), andb_false_r. destruct st. norm. split_all.
Qed.
Lemma write_frame_x st by_ fin op data : Pre st ->
  write_frame X cfg (sx st) by_ fin op data Open = sx1 (write_frame X cfg st by_ fin op data Open).
Proof.
  intros P. unfold write_frame. change (p_state (sx st)) with (p_state st).
  assert (pstate_eqb (p_state st) Open = false) as -> by (now destruct P as [-> | ->]). reflexivity.
Qed.
Lemma write_close_frame_x st by_ data : Pre st ->
  write_close_frame X cfg (sx st) by_ data = sx1 (write_close_frame X cfg st by_ data).
Proof.
  intros P. unfold write_close_frame. change (p_state (sx st)) with (p_state st). now rewrite (Pre_closed _ P).
Qed.
Lemma write_frame_Pre st by_ fin op data st' e : Pre st -> write_frame X cfg st by_ fin op data Open = (st', e) -> st' = st.
Proof.
  intros P. unfold write_frame. assert (pstate_eqb (p_state st) Open = false) as -> by (now destruct P as [-> | ->]).
  cbn [negb]. intros H. now apply pair_equal_spec in H as [<- _].
Qed.
Lemma ensure_open_x st : ensure_open (sx st) = ensure_open st. Proof. reflexivity. Qed.
Lemma ensure_open_Pre st : Pre st -> exists e, ensure_open st = ERaise e.
Proof. unfold ensure_open. intros [-> | ->]; eauto. Qed.
Lemma after_drain_x st a : Pre st ->
  after_drain X cfg (sx st) a = match after_drain X cfg st a with Some (st, r) => Some (sx st, r) | None => None end.
Proof.
  intros P. unfold after_drain. rewrite (fail_x st 1006 P). destruct (fail_connection X cfg st 1006) as [st2 e]. unfold sx1. cbn [fst snd].
  change (p_lost (sx st)) with (p_lost st). destruct a; try reflexivity. destruct (p_lost st) as [[[]|]|], o; reflexivity.
Qed.
Lemma close_tcp_x st e : close_tcp cfg (sx st) e = sx (close_tcp cfg st e).
Proof. same @close_tcp. Qed.
Lemma half_close_x st : half_close cfg (sx st) = sx (half_close cfg st).
Proof.
  unfold half_close. change (set_eof_written true (sx st)) with (sx (set_eof_written true st)). rewrite !close_tcp_x.
  destruct (c_can_write_eof cfg); [|reflexivity]. change (is_lost (sx (set_eof_written true st))) with (is_lost (set_eof_written true st)).
  destruct (is_lost _); reflexivity.
Qed.
Lemma after_transfer_x st : after_transfer cfg (sx st) = sx (after_transfer cfg st).
Proof.
  unfold after_transfer. set (st1 := match p_K st with KNone => st | _ => _ end).
  assert ((match p_K (sx st) with KNone => sx st | _ => set_Kcancel true (sx st) end) = sx st1) as -> by (subst st1; destruct st; norm; split_all).
  rewrite close_tcp_x, half_close_x. change (T_exists (sx st1)) with (T_exists st1). change (is_lost (sx st1)) with (is_lost st1).
  destruct (c_client cfg && T_exists st1); [destruct (is_lost st1)|]; reflexivity.
Qed.
Lemma step_C_x st a : step_C cfg (sx st) a = sxo (step_C cfg st a).
Proof.
  unfold step_C. rewrite !close_tcp_x, half_close_x, after_transfer_x. change (p_C (sx st)) with (p_C st). change (T_exists (sx st)) with (T_exists st).
  change (p_T (sx st)) with (p_T st). change (is_lost (sx st)) with (is_lost st). 
  destruct (p_C st) as [| | |d|d|d e|d e|e]; destruct a; try reflexivity;
    try (change (expired (sx st) d) with (expired st d); destruct (expired st d); try reflexivity);
    try (destruct (T_exists st); reflexivity); try (destruct (is_lost st); reflexivity);
    destruct (p_T st) as [| | | | | | |[]]; try reflexivity; rewrite ?close_tcp_x; reflexivity.
Qed.
Lemma after_ping_x st data : after_ping cfg (sx st) data = sx (after_ping cfg st data).
Proof.
  unfold after_ping. change (find_ping (sx st) data) with (find_ping st data). destruct (find_ping st data), (c_ping_timeout cfg); reflexivity.
Qed.
Lemma step_K_x st a : Pre st -> step_K X cfg (sx st) a = sxo (step_K X cfg st a).
Proof.
  intros P. unfold step_K. rewrite (after_drain_x st a P), (fail_x st 1011 P). change (p_K (sx st)) with (p_K st).
  change (p_Kcancel (sx st)) with (p_Kcancel st). change (ensure_open (sx st)) with (ensure_open st).
  change (ensure_open_end (sx st)) with (ensure_open_end st).
  change (p_now (sx st)) with (p_now st). change (p_pongs (sx st)) with (p_pongs st).
  destruct (ensure_open_Pre st P) as [e0 ->]. destruct (fail_connection X cfg st 1011) as [st2 e2]. unfold sx1. cbn [fst snd].
  destruct (p_K st) as [| |d|data| |w d|]; try reflexivity; (destruct (p_Kcancel st); [destruct a; reflexivity|]); destruct a; try reflexivity;
    try (destruct (after_drain X cfg st _) as [[st3 []]|]; try reflexivity; rewrite after_ping_x; reflexivity);
    try (destruct (c_ping_interval cfg); reflexivity); try (destruct (d <=? p_now st); reflexivity);
    try (destruct (ensure_open_end st); reflexivity); try (destruct (get_fut _ _); reflexivity).
Qed.
Lemma recv_loop_x st i : recv_loop (sx st) i = sx (recv_loop st i).
Proof. same @recv_loop. Qed.
Lemma recv_resume_x st i w : recv_resume cfg (sx st) i w = sx (recv_resume cfg st i w).
Proof.
  unfold recv_resume. change (set_pop None (sx st)) with (sx (set_pop None st)). rewrite !recv_loop_x.
  change (p_pops (sx (set_pop None st))) with (p_pops st). change (p_pops (set_pop None st)) with (p_pops st).
  change (ensure_open (sx (set_pop None st))) with (ensure_open (set_pop None st)).
  destruct (fut_done _), (c_legacy_recv cfg), (ensure_open (set_pop None st)); reflexivity.
Qed.
Lemma end_fragments_x st i r : end_fragments (sx st) i r = sx (end_fragments st i r).
Proof. same @end_fragments. Qed.
Lemma raise_fragments_x st i e : Pre st -> raise_fragments X cfg (sx st) i e = sx (raise_fragments X cfg st i e).
Proof.
  intros P. unfold raise_fragments. rewrite (fail_x st 1011 P), end_fragments_x. destruct (fail_connection X cfg st 1011) as [st2 e2].
  unfold sx1. cbn [fst snd]. rewrite end_fragments_x. destruct e; reflexivity.
Qed.
Ltac wf P := match goal with |- context [write_frame X cfg ?s ?a ?c ?o ?d Open] =>
  destruct (write_frame X cfg s a c o d Open) as [st2 [e2|]] eqn:W; apply write_frame_Pre in W; [subst st2|exact P|subst st2|exact P] end.
Lemma send_item_x st i op rest d : Pre st -> send_item X cfg (sx st) i op rest d = sx (send_item X cfg st i op rest d).
Proof.
  intros P. unfold send_item. destruct (prepare_data d) as [[op' data]|e]; [|now apply raise_fragments_x].
  destruct (negb _); [now apply raise_fragments_x|]. rewrite (write_frame_x _ _ _ _ _ P). unfold sx1.
  wf P; cbn [fst snd]; [now apply raise_fragments_x|reflexivity].
Qed.
Lemma send_last_x st i : Pre st -> send_last X cfg (sx st) i = sx (send_last X cfg st i).
Proof.
  intros P. unfold send_last. rewrite (write_frame_x _ _ _ _ _ P). unfold sx1. wf P; cbn [fst snd]; [now apply raise_fragments_x|reflexivity].
Qed.
Lemma send_next_x st i op src : Pre st -> send_next X cfg (sx st) i op src = sx (send_next X cfg st i op src).
Proof.
  intros P. unfold send_next. destruct src as [[|d rest] [e|]|]; try (now apply raise_fragments_x); try (now apply send_last_x); try (now apply send_item_x).
  reflexivity.
Qed.
Lemma send_first_x st i rest d : Pre st -> send_first X cfg (sx st) i rest d = sx (send_first X cfg st i rest d).
Proof.
  intros P. unfold send_first. destruct (prepare_data d) as [[op data]|e]; [|reflexivity]. cbv zeta.
  change (p_frags (sx st)) with (p_frags st).
  change (set_frag (Some (length (p_frags st))) (set_frags (p_frags st ++ [FPending]) (sx st)))
    with (sx (set_frag (Some (length (p_frags st))) (set_frags (p_frags st ++ [FPending]) st))).
  set (st1 := set_frag _ _). assert (P1 : Pre st1) by exact P. clearbody st1.
  rewrite (write_frame_x _ _ _ _ _ P1). unfold sx1. wf P1; cbn [fst snd]; [now apply raise_fragments_x|reflexivity].
Qed.
Lemma send_loop_x st i m : Pre st -> send_loop X cfg (sx st) i m = sx (send_loop X cfg st i m).
Proof.
  intros P. unfold send_loop. change (p_frag (sx st)) with (p_frag st). destruct (p_frag st); [reflexivity|].
  destruct m as [d| |[|d rest] [e|]| |]; try reflexivity; try (now apply send_first_x).
  destruct (prepare_data d) as [[op data]|e]; [|reflexivity]. rewrite (write_frame_x _ _ _ _ _ P). unfold sx1. wf P; reflexivity.
Qed.
Lemma close_wait_T_x st i t0 : close_wait_T cfg (sx st) i t0 = sx (close_wait_T cfg st i t0).
Proof. unfold close_wait_T. change (T_exists (sx st)) with (T_exists st). destruct (T_exists st); reflexivity. Qed.
Lemma close_timed_out_x st i t0 : Pre st -> close_timed_out X cfg (sx st) i t0 = sx (close_timed_out X cfg st i t0).
Proof.
  intros P. unfold close_timed_out. rewrite (fail_x st 1006 P). destruct (fail_connection X cfg st 1006) as [st2 e2]. apply close_wait_T_x.
Qed.
Lemma close_start_x st i code reason : Pre st -> close_start X cfg (sx st) i code reason = sx (close_start X cfg st i code reason).
Proof.
  intros P. unfold close_start. change (p_now (sx st)) with (p_now st).
  rewrite (close_timed_out_x _ _ _ P). destruct (serialize_close code reason) as [data|]; [|reflexivity].
  rewrite (write_close_frame_x _ _ _ P). destruct (write_close_frame X cfg st (ByCall i) data) as [st2 r]. unfold sx1. cbn [fst snd].
  change (p_now (sx st2)) with (p_now st2). rewrite close_wait_T_x.
  destruct (c_close_timeout cfg) as [[|t]|]; [reflexivity|..]; destruct r as [[]|]; reflexivity.
Qed.
Lemma start_call_x st i c a : Pre st -> start_call X cfg (sx st) i c a = sxo (start_call X cfg st i c a).
Proof.
  intros P. unfold start_call. change (ensure_open (sx st)) with (ensure_open st). change (p_pop (sx st)) with (p_pop st).
  destruct (ensure_open_Pre st P) as [e0 ->].
  destruct c; destruct a; try reflexivity.
  - rewrite recv_loop_x. destruct (p_pop st); reflexivity.
  - now rewrite close_start_x.
Qed.
Lemma cancel_call_x st i pc : Pre st -> cancel_call X cfg (sx st) i pc = sx (cancel_call X cfg st i pc).
Proof.
  intros P. unfold cancel_call. destruct pc as [| | | | | | | |[] | | | | | | | |]; try reflexivity; try (now apply raise_fragments_x).
  rewrite cancel_T_x. reflexivity.
Qed.
Lemma after_drain_Pre st a st' r : Pre st -> after_drain X cfg st a = Some (st', r) -> Pre st'.
Proof.
  intros P H. eapply (reach_after_drain X cfg False st) in H; [|apply reach_refl].
  revert P H. apply (reach_invariant cfg False Pre). intros a0 c Ha Q. exact (prim_pre cfg a0 c Q Ha).
Qed.
Lemma step_call_x st i pc a : Pre st -> step_call X cfg (sx st) i pc a = sxo (step_call X cfg st i pc a).
Proof.
  intros P.
  destruct pc as [c|w|w m| | |op src| | |[op|]|data|d t0|d t0|d t0|t0|t0| |r]; cbn [step_call].
  - now apply start_call_x.
  - destruct a; try reflexivity. change (p_pops (sx st)) with (p_pops st). change (T_done (sx st)) with (T_done st).
    rewrite recv_resume_x. destruct (_ || _); reflexivity.
  - destruct a; try reflexivity. change (p_frags (sx st)) with (p_frags st). rewrite (send_loop_x _ _ _ P). destruct (fut_done _); reflexivity.
  - destruct a; try reflexivity. change (ensure_open_end (sx st)) with (ensure_open_end st). destruct (ensure_open_end st); reflexivity.
  - rewrite (after_drain_x st a P). destruct (after_drain X cfg st a) as [[st2 []]|]; reflexivity.
  - rewrite (after_drain_x st a P). destruct (after_drain X cfg st a) as [[st2 []]|] eqn:Q; try reflexivity; apply (after_drain_Pre _ _ _ _ P) in Q.
    + now rewrite send_next_x.
    + now rewrite raise_fragments_x.
  - rewrite (after_drain_x st a P). destruct (after_drain X cfg st a) as [[st2 []]|] eqn:Q; try reflexivity; apply (after_drain_Pre _ _ _ _ P) in Q.
    + now rewrite end_fragments_x.
    + now rewrite raise_fragments_x.
  - destruct a; try reflexivity. change (ensure_open_end (sx st)) with (ensure_open_end st). destruct (ensure_open_end st); [|reflexivity].
    now rewrite raise_fragments_x.
  - destruct a as [| | | | |[d| |e]]; try reflexivity; [now rewrite send_item_x|now rewrite send_last_x|now rewrite raise_fragments_x].
  - destruct a as [| | | | |[d| |e]]; try reflexivity. now rewrite send_first_x.
  - rewrite (after_drain_x st a P). destruct (after_drain X cfg st a) as [[st2 []]|]; try reflexivity.
    change (find_ping (sx st2) data) with (find_ping st2 data). destruct (find_ping st2 data); reflexivity.
  - assert (Q : match after_drain X cfg (sx st) a with
      | Some (st, EOk) => Some (close_wait_T cfg st i t0)
      | Some (st, ERaise e) => Some (raise_ i e st)
      | Some (st, EWait) => Some (set_user i (UCloseEnsure d t0) st)
      | None => None end = sxo match after_drain X cfg st a with
      | Some (st, EOk) => Some (close_wait_T cfg st i t0)
      | Some (st, ERaise e) => Some (raise_ i e st)
      | Some (st, EWait) => Some (set_user i (UCloseEnsure d t0) st)
      | None => None end).
    { rewrite (after_drain_x st a P). destruct (after_drain X cfg st a) as [[st2 []]|]; try reflexivity. now rewrite close_wait_T_x. }
    destruct a; try exact Q. change (expired (sx st) d) with (expired st d). rewrite (close_timed_out_x _ _ _ P). destruct (expired st d); reflexivity.
  - destruct a; try reflexivity.
    + change (ensure_open_end (sx st)) with (ensure_open_end st). destruct (ensure_open_end st); reflexivity.
    + change (expired (sx st) d) with (expired st d). rewrite (close_timed_out_x _ _ _ P). destruct (expired st d); reflexivity.
  - destruct a; try reflexivity.
    + change (p_T (sx st)) with (p_T st). destruct (p_T st) as [| | | | | | |[]]; reflexivity.
    + change (expired (sx st) d) with (expired st d). rewrite cancel_T_x. destruct (expired st d); reflexivity.
  - destruct a; try reflexivity. change (T_done (sx st)) with (T_done st). destruct (T_done st); reflexivity.
  - destruct a; try reflexivity. change (p_C (sx st)) with (p_C st). destruct (p_C st) as [| | | | | | |[]]; reflexivity.
  - destruct a; try reflexivity. change (is_lost (sx st)) with (is_lost st). destruct (is_lost st); reflexivity.
  - reflexivity.
Qed.
Lemma connection_lost_x st o c : connection_lost (sx st) o c = sx (connection_lost st o c).
Proof.
  intros. destruct st as [p1 p2 p3 p4 [[]|]]; unfold connection_lost, connection_closed_exc; norm; split_all.
Qed.

(* Steps of a connection that isn't open *)
Lemma step_x st l : l <> LOpen -> Pre st -> p_T st = TNone -> step X cfg (sx st) l = sxo (step X cfg st l).
Proof.
  intros Hl P T. destruct l; cbn [step]; try reflexivity; try congruence.
  - now rewrite fail_x.
  - change (p_reader (sx st)) with (p_reader st). destruct (r_eof _); reflexivity.
  - change (p_reader (sx st)) with (p_reader st). destruct (r_eof _); reflexivity.
  - change (p_state (sx st)) with (p_state st). rewrite connection_lost_x. destruct (p_state st); reflexivity.
  - change (p_users (sx st)) with (p_users st). destruct (nth_error _ _) as [[[] ?]|]; reflexivity.
  - unfold step_T. change (p_T (sx st)) with (p_T st). now rewrite T.
  - now apply step_K_x.
  - apply step_C_x.
  - unfold step_user. change (p_users (sx st)) with (p_users st). destruct (nth_error (p_users st) i) as [[pc []]|]; [| |reflexivity].
    + destruct pc; try reflexivity; destruct a; try reflexivity; now rewrite (cancel_call_x _ _ _ P).
    + destruct pc; try reflexivity; now apply step_call_x.
Qed.
End Bridge.

Section Executions.
Context {E : Type} (X : ext_ops E) (cfg : config).
Implicit Type st : conn E.

Lemma step_T_none st l st' : l <> LOpen -> step X cfg st l = Some st' -> p_T st = TNone -> p_T st' = TNone.
Proof.
  intros Hl H T. destruct l; try (destruct (step_T_alone X cfg _ _ _ H) as [Q _]; [easy|easy|congruence]).
  cbn [step] in H. unfold step_T in H. now rewrite T in H.
Qed.
Lemma exec_x x ls : forall e st, ~ In LOpen ls -> exec X cfg (initial e) ls = Some st ->
  exec X cfg (initial x) ls = Some (set_exts x st).
Proof.
  intros e. assert (G : forall st0 st, Pre st0 -> p_T st0 = TNone -> ~ In LOpen ls -> exec X cfg st0 ls = Some st -> exec X cfg (set_exts x st0) ls = Some (set_exts x st)).
  { induction ls as [|l ls IH]; intros st0 st P T N H; cbn [exec] in H |- *.
    - now apply some_inj in H as <-.
    - assert (Hl : l <> LOpen) by (intros ->; apply N; now left).
      rewrite (step_x X cfg x st0 l Hl P T). destruct (step X cfg st0 l) as [st1|] eqn:S; [|discriminate]. cbn [sxo].
      apply IH; [exact (step_pre X cfg _ _ _ Hl S P)|exact (step_T_none _ _ _ Hl S T)| |exact H]. intros Q. apply N. now right. }
  intros st N H. exact (G (initial e) st (or_introl eq_refl) eq_refl N H).
Qed.
Lemma exec_snoc st ls st1 l st2 : exec X cfg st ls = Some st1 -> step X cfg st1 l = Some st2 -> exec X cfg st (ls ++ [l]) = Some st2.
Proof. intros H S. rewrite exec_app, H. cbn [exec]. now rewrite S. Qed.
End Executions.

Section Servers.
Context {E : Type} (X : ext_ops E) (cfg : config) (scfg : server_config E).
Implicit Types (p : peer E) (sv : server E).

Definition has_execution p : Prop := exists exts ls,
  exec X cfg (initial exts) ls = Some (h_conn p) /\ (h_pc p = HHandshake -> ~ In LOpen ls).

Lemma executed exts ls st : exec X cfg (initial exts) ls = Some st -> forall l st' pc r s, step X cfg st l = Some st' ->
  pc <> HHandshake -> has_execution (Peer st' pc r s).
Proof. intros H l st' pc r s0 S N. exists exts, (ls ++ [l]). split; [exact (exec_snoc X cfg _ _ _ _ _ H S)|]. easy. Qed.
Lemma h_reject_execution exts ls p st status : exec X cfg (initial exts) ls = Some st -> has_execution (h_reject X cfg p st status).
Proof.
  intros H. unfold h_reject. assert (S : step X cfg st (LFail 1006) = Some (fst (fail_connection X cfg st 1006))) by reflexivity.
  pose proof (exec_snoc X cfg _ _ _ _ _ H S) as H1.
  destruct (fail_connection X cfg st 1006) as [st2 [e|]]; cbn [fst] in H1.
  - exact (executed _ _ _ H1 LCloseTransport _ (HDone false) _ _ eq_refl ltac:(discriminate)).
  - exact (executed _ _ _ H1 (LCall CallWaitClosed) _ (HReject _) _ _ eq_refl ltac:(discriminate)).
Qed.
Lemma h_handshake_execution p serving o : PeerInv cfg p -> has_execution p -> h_pc p = HHandshake -> has_execution (h_handshake X cfg scfg p serving o).
Proof.
  intros I (exts0 & ls & H & N) Hpc. specialize (N Hpc).
  assert (R : has_execution (h_raise p (h_conn p))) by exact (executed _ _ _ H LCloseTransport _ (HDone false) _ _ eq_refl ltac:(discriminate)).
  unfold h_handshake. destruct o as [env data hook| |]; [|exact R|].
  - destruct (legacy_response _ _ _ _ _) as [[[status h] [body|]]|e]; [exact (h_reject_execution _ _ _ _ _ H)| |exact R].
    set (exts := match read_http_request data with Ok _ => _ | Raise _ => _ end). clearbody exts. cbv zeta.
    pose proof (exec_x X cfg exts ls exts0 _ N H) as H1.
    pose proof (h_reject_execution exts ls (Peer (set_exts exts (h_conn p)) (h_pc p) (h_registered p) (h_responses p ++ [status])) _ 500 H1) as J.
    destruct (p_state (set_exts exts (h_conn p))) eqn:S; try exact J. destruct (p_C (set_exts exts (h_conn p))) eqn:PC; try exact J.
    refine (executed _ _ _ H1 LOpen _ HUser _ _ _ ltac:(discriminate)). cbn [step]. now rewrite S, PC.
  - exists exts0, ls. split; [exact H|discriminate].
Qed.
Lemma h_user_execution p r : has_execution p -> h_pc p = HUser -> has_execution (h_user X cfg p r).
Proof.
  intros (exts & ls & H & _) Hpc. unfold h_user. destruct r.
  - exact (executed _ _ _ H (LCall (CallClose 1000 [])) _ (HClose _) _ _ eq_refl ltac:(discriminate)).
  - assert (S : step X cfg (h_conn p) (LFail 1011) = Some (fst (fail_connection X cfg (h_conn p) 1011))) by reflexivity.
    pose proof (exec_snoc X cfg _ _ _ _ _ H S) as H1.
    destruct (p_state (h_conn p)); try exact (executed _ _ _ H1 LCloseTransport _ (HDone false) _ _ eq_refl ltac:(discriminate)).
    exact (executed _ _ _ H LCloseTransport _ (HDone false) _ _ eq_refl ltac:(discriminate)).
  - exists exts, ls. split; [exact H|discriminate].
Qed.
Lemma h_resume_execution p p' : has_execution p -> h_resume p = Some p' -> has_execution p'.
Proof.
  intros (exts & ls & H & _).
  assert (A : forall c, has_execution (h_end p (h_conn p) c)) by (intros c; exists exts, ls; split; [exact H|discriminate]).
  assert (B : has_execution (h_raise p (h_conn p))) by exact (executed _ _ _ H LCloseTransport _ (HDone false) _ _ eq_refl ltac:(discriminate)).
  unfold h_resume. destruct (h_pc p) as [|i| |i|]; try discriminate;
    (destruct (nth_error _ _) as [[[| | | | | | | | | | | | | | | |[| | |[]]] ?]|]; try discriminate;
     intros Q; apply some_inj in Q as <-; auto).
Qed.
Lemma own_execution p l st r s : has_execution p -> own_step l = true -> step X cfg (h_conn p) l = Some st ->
  has_execution (Peer st (h_pc p) r s).
Proof.
  intros (exts & ls & H & N) O S. exists exts, (ls ++ [l]). split; [exact (exec_snoc X cfg _ _ _ _ _ H S)|].
  intros Hpc Q. apply in_app_iff in Q as [Q|[-> |[]]]; [exact (N Hpc Q)|discriminate].
Qed.
Lemma going_away_execution p : has_execution p -> has_execution (going_away p).
Proof.
  intros H. unfold going_away. destruct (h_registered p); [|exact H].
  exact (own_execution p (LCall (CallClose 1001 [])) _ _ _ H eq_refl eq_refl).
Qed.
Lemma sstep_execution sv l sv' : SInv cfg sv -> sstep X cfg scfg sv l = Some sv' -> Forall has_execution (s_peers sv) -> Forall has_execution (s_peers sv').
Proof.
  intros I H F.
  assert (W : forall k f, with_peer sv k f = Some sv' ->
    (forall p1 p2, PeerInv cfg p1 -> has_execution p1 -> f p1 = Some p2 -> has_execution p2) -> Forall has_execution (s_peers sv')).
  { intros k f W Q. unfold with_peer in W. destruct (nth_error (s_peers sv) k) as [p0|] eqn:K0; [|discriminate].
    destruct (f p0) as [p1|] eqn:Hf; [|discriminate]. apply some_inj in W as <-. cbn [s_peers].
    apply Forall_replace; [exact F|]. apply (Q p0); [exact (peer_inv cfg _ _ _ I K0)| |exact Hf].
    rewrite Forall_forall in F. apply F. now apply nth_error_In in K0. }
  destruct l as [|k0 l|k0 o|k0 r|k0| |]; cbn [sstep] in H.
  - apply some_inj in H as <-. cbn [s_peers]. apply Forall_app. split; [exact F|]. constructor; [|constructor].
    exists [], []. split; [reflexivity|]. intros _ [].
  - destruct (own_step l) eqn:O; [|discriminate]. apply (W _ _ H). intros p1 p2 _ H1 Q.
    destruct (step X cfg (h_conn p1) l) as [st|] eqn:S; [|discriminate]. apply some_inj in Q as <-. exact (own_execution _ _ _ _ _ H1 O S).
  - apply (W _ _ H). intros p1 p2 I1 H1 Q. destruct (h_pc p1) eqn:Hpc; try discriminate. apply some_inj in Q as <-. now apply h_handshake_execution.
  - apply (W _ _ H). intros p1 p2 _ H1 Q. destruct (h_pc p1) eqn:Hpc; try discriminate. apply some_inj in Q as <-. now apply h_user_execution.
  - apply (W _ _ H). intros p1 p2 _ H1 Q. exact (h_resume_execution _ _ H1 Q).
  - apply some_inj in H as <-. now destruct (s_close sv).
  - unfold step_close, wait_handlers in H. destruct (s_close sv) as [| | | |cs|hs|]; try discriminate;
      try (destruct (going_away_calls _ _)); try (destruct (forallb _ _); [|discriminate]); apply some_inj in H as <-; try exact F;
      try (destruct (registered _ _); exact F).
    cbn [s_peers]. rewrite Forall_map. eapply Forall_impl; [|exact F]. apply going_away_execution.
Qed.
Lemma sexec_execution ls sv : sexec X cfg scfg sinitial ls = Some sv -> Forall has_execution (s_peers sv).
Proof.
  assert (G : forall sv0, SInv cfg sv0 -> Forall has_execution (s_peers sv0) -> sexec X cfg scfg sv0 ls = Some sv -> Forall has_execution (s_peers sv)).
  { induction ls as [|l ls IH]; intros sv0 I F H; cbn [sexec] in H.
    - now apply some_inj in H as <-.
    - destruct (sstep X cfg scfg sv0 l) as [sv1|] eqn:S; [|discriminate].
      apply (IH sv1); [exact (SInv_step X cfg scfg _ _ _ I S)|exact (sstep_execution _ _ _ I S F)|exact H]. }
  apply G; [apply SInv_initial|constructor].
Qed.
End Servers.
