(* Invariants of connect(): the connections that it makes. *)
From Verif Require Import Base.Prelude Base.PreludeFacts Model.Streams Model.Frames Model.Http11 Model.Handshake Model.Client Model.Uri
  Model.LegacyHandshake Model.LegacyFraming Model.LegacyProtocol Model.LegacyServer Model.Connect Model.LegacyClient
  Proofs.LegacyPrims Proofs.LegacyFields Proofs.LegacyShapes Proofs.LegacyUsers Proofs.LegacyTiming Proofs.LegacyKeepalive
  Properties.AsyncioClosing Proofs.LegacyServerFacts Proofs.LegacyClose Proofs.LegacyBridge.
Local Open Scope N_scope.

Section Facts.
Context {E : Type} (X : ext_ops E) (cfg : config) (ccfg : client_config E) (ue : uri_env).
Implicit Types (k : connecting E) (st c : conn E).

(* close_connection, when the connection never opened: there is no data transfer to wait for *)
Definition timed (d : option N) : Prop := c_close_timeout cfg <> None -> d <> None.
Definition shut_pc (pc : cpc) : Prop :=
  match pc with
  | CStart | CDone None => True
  | CLost1 d | CLost2 d | CLost3 d None | CLost4 d None => timed d
  | _ => False
  end.
Definition shut st : Prop := p_T st = TNone /\ shut_pc (p_C st).
Lemma timed_deadline st : timed (deadline st (c_close_timeout cfg)).
Proof. unfold timed, deadline. destruct (c_close_timeout cfg); [discriminate|congruence]. Qed.
Lemma close_tcp_shut st : shut_pc (p_C (close_tcp cfg st None)).
Proof. unfold close_tcp. destruct (_ && _); [exact Logic.I|]. cbv zeta. destruct (is_lost _); [exact Logic.I|]. apply timed_deadline. Qed.
Lemma half_close_shut st : shut_pc (p_C (half_close cfg st)).
Proof.
  unfold half_close. destruct (c_can_write_eof cfg); [|apply close_tcp_shut]. cbv zeta.
  destruct (is_lost _); [apply close_tcp_shut|apply timed_deadline].
Qed.
Lemma step_C_shut st a st' : step_C cfg st a = Some st' -> p_T st = TNone -> shut_pc (p_C st) -> shut_pc (p_C st').
Proof.
  intros H T S. unfold step_C in H. destruct (p_C st) as [| | |d|d|d [e|]|d [e|]|[e|]]; try contradiction; destruct a; try discriminate.
  - apply some_inj in H as <-. unfold T_exists. rewrite T. unfold after_transfer. cbv zeta.
    replace (T_exists (match p_K st with KNone => st | _ => set_Kcancel true st end)) with false
      by (unfold T_exists; destruct (p_K st); cbn [set_Kcancel p_T]; now rewrite T).
    rewrite andb_false_r. apply half_close_shut.
  - destruct (is_lost st); [|discriminate]. apply some_inj in H as <-. apply close_tcp_shut.
  - destruct (expired st d); [|discriminate]. apply some_inj in H as <-. destruct (is_lost st); [apply close_tcp_shut|apply half_close_shut].
  - destruct (is_lost st); [|discriminate]. apply some_inj in H as <-. apply close_tcp_shut.
  - destruct (expired st d); [|discriminate]. apply some_inj in H as <-. apply close_tcp_shut.
  - destruct (is_lost st); [|discriminate]. apply some_inj in H as <-. exact Logic.I.
  - destruct (expired st d); [|discriminate]. destruct (is_lost st); apply some_inj in H as <-; [exact Logic.I|].
    apply timed_deadline.
  - destruct (is_lost st); [|discriminate]. apply some_inj in H as <-. exact Logic.I.
  - destruct (expired st d); [|discriminate]. apply some_inj in H as <-. exact Logic.I.
Qed.
Lemma shut_step st l st' : l <> LOpen -> step X cfg st l = Some st' -> shut st -> shut st'.
Proof.
  intros Hl H [T S]. split; [exact (step_T_none X cfg _ _ _ Hl H T)|].
  assert (G : p_C st' = p_C st \/ p_C st = CNone /\ p_C st' = CStart -> shut_pc (p_C st')).
  { intros [-> |[_ ->]]; [exact S|exact Logic.I]. }
  destruct l; cbn [step] in H; try (now apply (step_C_shut st a)); try apply G.
  - now destruct Hl.
  - destruct (fail_connection _ _ _ _) as [st2 e2] eqn:F. apply some_inj in H as <-.
    now destruct (LegacyTiming.fail_ck X cfg _ _ _ _ F) as (_ & _ & Q & _).
  - destruct (r_eof _); [discriminate|]. apply some_inj in H as <-. now left.
  - destruct (r_eof _); [discriminate|]. apply some_inj in H as <-. now left.
  - destruct (p_state st); try discriminate; apply some_inj in H as <-;
      destruct (connection_lost_shape st o closing) as (? & ? & ? & ? & ? & ->); now left.
  - apply some_inj in H as <-. now left.
  - apply some_inj in H as <-. now left.
  - apply some_inj in H as <-. now left.
  - destruct (nth_error _ _) as [[[] ?]|]; try discriminate; apply some_inj in H as <-; now left.
  - now destruct (LegacyTiming.step_T_ck X cfg _ _ _ H) as (_ & _ & Q & _).
  - now destruct (LegacyTiming.step_K_ck X cfg _ _ _ H) as (_ & _ & Q & _).
  - now destruct (LegacyTiming.step_user_ck X cfg _ _ _ _ H) as (_ & _ & Q & _).
Qed.

Definition ran c : Prop := exists exts ls, exec X cfg (initial exts) ls = Some c.
Definition unopened c : Prop := exists ls, exec X cfg (initial []) ls = Some c /\ ~ In LOpen ls.
Definition lost c : Prop := p_lost c <> None.
Definition over c : Prop := p_lost c <> None \/ p_aborted c <> None.

Lemma ran_step st l st' : ran st -> step X cfg st l = Some st' -> ran st'.
Proof. intros (exts & ls & H) S. exists exts, (ls ++ [l]). exact (exec_snoc X cfg _ _ _ _ _ H S). Qed.
Lemma exec_C_none ls : forall st c, ~ In LOpen ls -> p_T st = TNone -> p_C st = CNone \/ shut_pc (p_C st) ->
  exec X cfg st ls = Some c -> p_T c = TNone /\ (p_C c = CNone \/ shut_pc (p_C c)).
Proof.
  induction ls as [|l ls IH]; intros st c N T S H; cbn [exec] in H; [apply some_inj in H as <-; now split|].
  assert (Hl : l <> LOpen) by (intros ->; apply N; now left).
  destruct (step X cfg st l) as [st1|] eqn:Q; [|discriminate].
  apply (IH st1); [intros Z; apply N; now right|exact (step_T_none X cfg _ _ _ Hl Q T)| |exact H].
  destruct S as [S|S]; [|right; exact (proj2 (shut_step st l st1 Hl Q (conj T S)))].
  assert (G : p_C st1 = p_C st \/ p_C st = CNone /\ p_C st1 = CStart -> p_C st1 = CNone \/ shut_pc (p_C st1)).
  { intros [-> |[_ ->]]; [now left|right; exact Logic.I]. }
  destruct l; cbn [step] in Q; try apply G.
  - now destruct Hl.
  - destruct (fail_connection _ _ _ _) as [st2 e2] eqn:F. apply some_inj in Q as <-.
    now destruct (LegacyTiming.fail_ck X cfg _ _ _ _ F) as (_ & _ & W & _).
  - destruct (r_eof _); [discriminate|]. apply some_inj in Q as <-. now left.
  - destruct (r_eof _); [discriminate|]. apply some_inj in Q as <-. now left.
  - destruct (p_state st); try discriminate; apply some_inj in Q as <-;
      destruct (connection_lost_shape st o closing) as (? & ? & ? & ? & ? & ->); now left.
  - apply some_inj in Q as <-. now left.
  - apply some_inj in Q as <-. now left.
  - apply some_inj in Q as <-. now left.
  - destruct (nth_error _ _) as [[[] ?]|]; try discriminate; apply some_inj in Q as <-; now left.
  - now destruct (LegacyTiming.step_T_ck X cfg _ _ _ Q) as (_ & _ & W & _).
  - now destruct (LegacyTiming.step_K_ck X cfg _ _ _ Q) as (_ & _ & W & _).
  - unfold step_C in Q. rewrite S in Q. destruct a; discriminate.
  - now destruct (LegacyTiming.step_user_ck X cfg _ _ _ _ Q) as (_ & _ & W & _).
Qed.
Lemma unopened_C c : unopened c -> p_T c = TNone /\ (p_C c = CNone \/ shut_pc (p_C c)).
Proof. intros (ls & H & N). exact (exec_C_none ls (initial []) c N eq_refl (or_introl eq_refl) H). Qed.
Lemma unopened_ran c : unopened c -> ran c.
Proof. intros (ls & H & _). now exists [], ls. Qed.
Lemma unopened_step st l st' : l <> LOpen -> unopened st -> step X cfg st l = Some st' -> unopened st'.
Proof.
  intros Hl (ls & H & N) S. exists (ls ++ [l]). split; [exact (exec_snoc X cfg _ _ _ _ _ H S)|].
  intros Q. apply in_app_iff in Q as [Q|[Q|[]]]; [exact (N Q)|now apply Hl].
Qed.
Lemma unopened_exts c exts : unopened c -> ran (set_exts exts c).
Proof. intros (ls & H & N). exists exts, ls. exact (exec_x X cfg exts ls [] c N H). Qed.
Lemma ran_Good c : ran c -> Good cfg c.
Proof.
  intros (exts & ls & H). assert (G : forall st, Good cfg st -> exec X cfg st ls = Some c -> Good cfg c).
  { clear H. induction ls as [|l ls IH]; intros st G H; cbn [exec] in H.
    - now apply some_inj in H as <-.
    - destruct (step X cfg st l) as [st1|] eqn:S; [|discriminate]. exact (IH st1 (Good_step X cfg _ _ _ G S) H). }
  exact (G _ (Good_initial X cfg exts) H).
Qed.
Lemma unopened_Pre c : unopened c -> Pre c.
Proof.
  intros (ls & H & N). assert (G : forall st, Pre st -> exec X cfg st ls = Some c -> Pre c).
  { clear H. induction ls as [|l ls IH]; intros st G H; cbn [exec] in H.
    - now apply some_inj in H as <-.
    - destruct (step X cfg st l) as [st1|] eqn:S; [|discriminate].
      refine (IH _ st1 (step_pre X cfg _ _ _ _ S G) H); intros Q; apply N; [now right|subst; now left]. }
  refine (G (initial []) _ H). now left.
Qed.
Lemma lost_step st l st' : ran st -> step X cfg st l = Some st' -> lost st -> lost st'.
Proof.
  intros R H L. destruct (ran_Good st R) as (B & _). unfold lost in *.
  destruct (p_lost_step X cfg _ _ _ H) as [[-> _]|(o & x & _ & N)]; [exact L|].
  destruct B as (_ & Lo & _). apply Lo in L. contradiction.
Qed.
Lemma over_step st l st' : ran st -> step X cfg st l = Some st' -> over st -> over st'.
Proof.
  intros R H [L|L]; [left; exact (lost_step st l st' R H L)|right].
  destruct (ran_Good st R) as (B & _). destruct (step_ended X cfg st l st' B H) as (_ & Q & _). auto.
Qed.

(** The last connection, depending on where connect() is *)
Definition last_ok (pc : apc) c : Prop :=
  match pc with
  | AConnect | ARaised _ | ACancelled InCreateConnection => lost c
  | AHandshake | ACancelled InHandshake => unopened c
  | AFail _ i => Pre c /\ Waiter c i /\ shut c
  | ACancelled InWaitClosed => Pre c /\ shut c
  | AReturned => p_state c <> Connecting
  | AExit i => p_state c <> Connecting /\ Closer cfg 1000 c i
  | AExited r => p_state c <> Connecting /\ (r = RNone -> over c /\ (not0 cfg -> p_state c <> Open))
  end.
Definition in_connect (pc : apc) : nat := match pc with AConnect => 1 | _ => 0 end.
Definition needs_last (pc : apc) : bool :=
  match pc with AConnect | ARaised _ | ACancelled InCreateConnection => false | _ => true end.
Definition KInv k : Prop :=
  Forall ran (k_conns k) /\ Forall lost (tl (k_conns k)) /\
  match k_conns k with c :: _ => last_ok (k_pc k) c | [] => needs_last (k_pc k) = false end /\
  (length (k_conns k) + k_left k + in_connect (k_pc k) <= 10)%nat.

Lemma last_ok_step pc st l st' : ran st -> own_step l = true -> step X cfg st l = Some st' -> last_ok pc st -> last_ok pc st'.
Proof.
  intros R O H. assert (Hl : l <> LOpen) by (intros ->; discriminate). pose proof (ran_Good st R) as G.
  assert (Cl : forall i, p_state st <> Connecting /\ Closer cfg 1000 st i -> p_state st' <> Connecting /\ Closer cfg 1000 st' i).
  { intros i [P C]. split; [exact (not_connecting X cfg _ _ _ H P)|].
    refine (Closer_step X cfg 1000 _ _ _ i _ _ Hl G H C). vm_compute. reflexivity. }
  destruct pc as [| |f i| |e|[| |]|i|r]; cbn [last_ok]; try (exact (lost_step st l st' R H)); try (intros U; exact (unopened_step _ _ _ Hl U H)).
  - intros (P & W & C). split; [exact (step_pre X cfg _ _ _ Hl H P)|]. split; [exact (Waiter_step X cfg _ _ _ _ Hl G H W)|].
    exact (shut_step _ _ _ Hl H C).
  - exact (not_connecting X cfg _ _ _ H).
  - intros (P & C). split; [exact (step_pre X cfg _ _ _ Hl H P)|]. exact (shut_step _ _ _ Hl H C).
  - apply Cl.
  - intros [P Q]. split; [exact (not_connecting X cfg _ _ _ H P)|]. intros Z. destruct (Q Z) as [Q1 Q2].
    split; [exact (over_step st l st' R H Q1)|]. intros N. exact (step_not_open X cfg _ _ _ Hl H (Q2 N)).
Qed.

Lemma replace_tl {A} j (v : A) l : tl (replace (Datatypes.S j) v l) = replace j v (tl l).
Proof. destruct l; [now destruct j|reflexivity]. Qed.

Lemma own_inv k j l st st' : KInv k -> own_step l = true -> nth_error (k_conns k) j = Some st -> step X cfg st l = Some st' ->
  KInv (Connecting_ (k_state k) (k_left k) (replace j st' (k_conns k)) (k_attempts k) (k_pc k)).
Proof.
  intros (F & L & P & B) O J H. destruct (k_conns k) as [|c old] eqn:Kc; [destruct j; discriminate|].
  assert (R : ran st) by (rewrite Forall_forall in F; exact (F st (nth_error_In _ _ J))).
  unfold KInv. cbn [k_conns k_left k_pc]. rewrite length_replace.
  split; [apply Forall_replace; [exact F|exact (ran_step _ _ _ R H)]|]. destruct j as [|j]; cbn [replace nth_error tl] in *.
  - apply some_inj in J as ->. split; [exact L|]. split; [exact (last_ok_step _ _ _ _ R O H P)|exact B].
  - split; [|split; [exact P|exact B]]. apply Forall_replace; [exact L|].
    apply (lost_step st l st' R H). rewrite Forall_forall in L. exact (L st (nth_error_In _ _ J)).
Qed.

Lemma fail_shut st : p_T st = TNone -> p_C st = CNone \/ shut_pc (p_C st) -> shut (fst (fail_connection X cfg st 1006)).
Proof.
  intros T S. unfold fail_connection. cbn [Z.eqb Pos.eqb negb andb fst]. unfold shut.
  assert (A : cancel_T st = st) by (unfold cancel_T, T_exists; now rewrite T). rewrite A.
  destruct S as [S|S]; [rewrite S; now split|]. destruct (p_C st) eqn:Q; try (rewrite Q; now split). contradiction.
Qed.
Lemma k_fail_inv k c c0 old f : KInv k -> k_pc k = AHandshake -> k_conns k = c0 :: old -> ran c -> Pre c ->
  p_T c = TNone -> p_C c = CNone \/ shut_pc (p_C c) -> KInv (k_fail X cfg k c old f).
Proof.
  intros (F & L & _ & B) Hp Kc R P Tn Cn. rewrite Kc, Hp in *. cbn [tl] in L.
  destruct (fail_1006 X cfg c P) as (st' & Q & P' & U). pose proof (fail_shut c Tn Cn) as Cs.
  assert (S : step X cfg c (LFail 1006) = Some (fst (fail_connection X cfg c 1006))) by reflexivity.
  unfold k_fail. rewrite Q in *. cbn [fst] in *. pose proof (ran_step _ _ _ R S) as R1.
  unfold KInv. cbn [with_conn k_conns k_left k_pc tl]. split.
  { constructor; [exact (ran_step st' (LCall CallWaitClosed) _ R1 eq_refl)|now inversion F]. }
  split; [exact L|]. split; [|cbn [length in_connect] in *; lia]. cbn [last_ok].
  split; [exact P'|]. split; [|exact Cs]. exists (UStart CallWaitClosed), false. split; [now apply nth_start|exact Logic.I].
Qed.
Lemma k_handshake_inv k o k' : KInv k -> k_pc k = AHandshake -> k_handshake X cfg ccfg k o = Some k' -> KInv k'.
Proof.
  intros I Hp. pose proof I as (F & L & P & B). unfold k_handshake. destruct (k_conns k) as [|c old] eqn:Kc; [discriminate|].
  rewrite Hp in P. cbn [last_ok] in P.
  assert (J : forall f k1, Some (k_fail X cfg k c old f) = Some k1 -> KInv k1).
  { intros f k1 Q. apply some_inj in Q as <-. apply (k_fail_inv k c c old f I Hp Kc); [now apply unopened_ran|now apply unopened_Pre|now apply unopened_C..]. }
  destruct o as [key data|e]; [|apply J]. destruct (read_http_response data) as [[status h]|e]; [|apply J].
  destruct (legacy_client_handshake ccfg key status h) as [exts sub|uri|e]; try apply J. cbv zeta.
  assert (J2 : forall f k1, Some (k_fail X cfg k (set_exts exts c) old f) = Some k1 -> KInv k1).
  { intros f k1 Q. apply some_inj in Q as <-. apply (k_fail_inv k (set_exts exts c) c old f I Hp Kc); [now apply unopened_exts| |now apply unopened_C in P..].
    now apply unopened_Pre in P. }
  destruct (p_state (set_exts exts c)) eqn:S; try apply J2. destruct (p_C (set_exts exts c)) eqn:PC; try apply J2.
  intros Q. apply some_inj in Q as <-. unfold KInv. cbn [with_conn k_conns k_left k_pc tl in_connect last_ok length] in *.
  rewrite Hp in B. cbn [in_connect] in B. split; [|split; [exact L|split; [discriminate|lia]]].
  constructor; [|now inversion F]. apply (ran_step (set_exts exts c) LOpen); [now apply unopened_exts|]. cbn [step]. now rewrite S, PC.
Qed.
Lemma k_resume_inv k k' : KInv k -> k_resume ue k = Some k' -> KInv k'.
Proof.
  intros (F & L & P & B). unfold k_resume. destruct (k_conns k) as [|c old] eqn:Kc; [discriminate|]. cbn [tl] in L.
  destruct (k_pc k) as [| |f i| | | |i|] eqn:Hp; try discriminate; cbn [last_ok in_connect] in P, B.
  - destruct P as (P & (pc & x & Hi & W) & C). rewrite Hi.
    destruct pc as [| | | | | | | | | | | | | | | |r]; try discriminate.
    assert (A' : lost c -> forall e, KInv (at_pc k (ARaised e))).
    { intros Lc e. unfold KInv. cbn [at_pc k_conns k_left k_pc]. rewrite Kc. cbn [tl last_ok in_connect] in *.
      split; [exact F|]. split; [exact L|]. split; [exact Lc|]. lia. }
    destruct r as [| | |e]; try contradiction.
    + destruct f as [uri|e].
      * destruct (handle_redirect ue (k_state k) uri) as [cs|e]; intros Q; apply some_inj in Q as <-; [|now apply A'].
        unfold k_next. destruct (k_left k) as [|n] eqn:Kl; [now apply A'|].
        unfold KInv. cbn [k_conns k_left k_pc]. rewrite Kc. cbn [tl last_ok in_connect] in *.
        split; [exact F|]. split; [exact L|]. split; [exact W|]. lia.
      * intros Q. apply some_inj in Q as <-. now apply A'.
    + intros Q. apply some_inj in Q as <-. unfold KInv. cbn [at_pc k_conns k_left k_pc]. rewrite Kc. cbn [tl last_ok in_connect].
      split; [exact F|]. split; [exact L|]. split; [now split|exact B].
  - destruct P as (P & (pc & x & Hi & W)). rewrite Hi.
    destruct pc as [| | | | | | | | | | | | | | | |r]; try discriminate.
    intros Q. apply some_inj in Q as <-. unfold KInv. cbn [at_pc k_conns k_left k_pc]. rewrite Kc. cbn [tl last_ok in_connect].
    split; [exact F|]. split; [exact L|]. split; [|exact B]. split; [exact P|]. intros ->.
    destruct W as [W|[W|[W O]]]; try discriminate. cbn [close_pc] in W. split; [|exact O].
    assert (R : ran c) by (now inversion F). destruct (ran_Good c R) as (_ & _ & En). unfold Ended in En. rewrite W in En. exact En.
Qed.
Lemma kstep_inv k l k' : KInv k -> kstep X cfg ccfg ue k l = Some k' -> KInv k'.
Proof.
  intros I H. destruct l as [o|j l|o| | |]; cbn [kstep] in H.
  - destruct (k_pc k) eqn:Hp; try discriminate. apply some_inj in H as <-. pose proof I as (F & L & P & B).
    rewrite Hp in *. cbn [in_connect] in B.
    assert (A : forall at_ e, KInv (Connecting_ (k_state k) (k_left k) (k_conns k) at_ (ARaised e))).
    { intros at_ e. unfold KInv. cbn [k_conns k_left k_pc in_connect]. split; [exact F|]. split; [exact L|].
      split; [destruct (k_conns k); exact P|]. lia. }
    unfold k_create. destruct (create_connection _) as [[p tls]|e]; [|apply A]. destruct o as [e|]; [apply A|].
    unfold KInv. cbn [k_conns k_left k_pc in_connect tl length]. split.
    { constructor; [now exists [], []|exact F]. }
    split. { destruct (k_conns k); [constructor|now constructor]. }
    split; [|lia]. cbn [last_ok]. exists []. split; [reflexivity|intros []].
  - destruct (own_step l) eqn:O; [|discriminate]. destruct (nth_error (k_conns k) j) as [st|] eqn:J; [|discriminate].
    destruct (step X cfg st l) as [st'|] eqn:S; [|discriminate]. apply some_inj in H as <-. now apply (own_inv k j l st st').
  - destruct (k_pc k) eqn:Hp; try discriminate. now apply (k_handshake_inv k o).
  - now apply (k_resume_inv k).
  - pose proof I as (F & L & P & B).
    destruct (k_pc k) eqn:Hp; try discriminate; apply some_inj in H as <-; rewrite ?Hp in *; unfold KInv; cbn [at_pc k_conns k_left k_pc in_connect] in *;
      (split; [exact F|]); (split; [exact L|]); (split; [destruct (k_conns k); exact P|lia]).
  - unfold k_exit in H. pose proof I as (F & L & P & B). destruct (k_conns k) as [|c old] eqn:Kc; [discriminate|].
    destruct (k_pc k) eqn:Hp; try discriminate. apply some_inj in H as <-. cbn [tl last_ok in_connect length] in *.
    unfold KInv. cbn [with_conn k_conns k_left k_pc tl in_connect length]. split.
    { constructor; [|now inversion F]. apply (ran_step c (LCall (CallClose 1000 []))); [now inversion F|reflexivity]. }
    split; [exact L|]. split; [|lia]. cbn [last_ok]. split; [exact P|].
    exists (UStart (CallClose 1000 [])), false. split; [now apply nth_start|now left].
Qed.
Lemma kinitial_inv cs : KInv (kinitial cs).
Proof. unfold KInv, kinitial. cbn. split; [constructor|]. split; [constructor|]. split; [reflexivity|lia]. Qed.
Lemma kexec_inv ls : forall k k', KInv k -> kexec X cfg ccfg ue k ls = Some k' -> KInv k'.
Proof.
  induction ls as [|l ls IH]; intros k k' I H; cbn [kexec] in H; [now apply some_inj in H as <-|].
  destruct (kstep X cfg ccfg ue k l) as [k1|] eqn:S; [|discriminate]. exact (IH k1 k' (kstep_inv _ _ _ I S) H).
Qed.
End Facts.

(** The attempts are those of connect_loop, when the answers are those that were received. *)
Section Attempts.
Context {E : Type} (X : ext_ops E) (cfg : config) (ccfg : client_config E) (ue : uri_env) (cs0 : connect_state).
Implicit Types (k : connecting E) (w : world).

Definition obeys w (ans : list answer) : Prop := forall past i a, length past = Datatypes.S i -> nth_error ans i = Some a -> w past = a.
Definition the_loop w : list attempt * connect_end := connect_loop ue w max_redirects_allowed cs0 [].
Definition answered k w : list attempt * connect_end :=
  match w (k_attempts k) with
  | Opens => (k_attempts k, Connected (last (k_attempts k) {| at_uri := cs_wsuri cs0; at_peer := PeerSock; at_tls := false |}))
  | Fails e => (k_attempts k, Failed e)
  | Redirects uri =>
      match handle_redirect ue (k_state k) uri with
      | Raise e => (k_attempts k, Failed e)
      | Ok st => connect_loop ue w (k_left k) st (k_attempts k)
      end
  end.
Definition agrees k (ans : list answer) : Prop :=
  match k_pc k with
  | AConnect | ACancelled InCreateConnection =>
      length ans = length (k_attempts k) /\
      forall w, obeys w ans -> the_loop w = connect_loop ue w (Datatypes.S (k_left k)) (k_state k) (k_attempts k)
  | AHandshake | AFail _ _ | ACancelled InHandshake | ACancelled InWaitClosed =>
      Datatypes.S (length ans) = length (k_attempts k) /\ forall w, obeys w ans -> the_loop w = answered k w
  | AReturned | AExit _ | AExited _ => forall w, obeys w ans -> exists a, the_loop w = (k_attempts k, Connected a)
  | ARaised e => forall w, obeys w ans -> the_loop w = (k_attempts k, Failed e)
  end.

Lemma obeys_app w ans a : obeys w (ans ++ [a]) -> obeys w ans /\ forall past, length past = Datatypes.S (length ans) -> w past = a.
Proof.
  intros O. split.
  - intros past i x L Q. apply (O past i x L). rewrite nth_error_app1; [exact Q|]. apply nth_error_Some. congruence.
  - intros past L. apply (O past (length ans) a L). rewrite nth_error_app2, Nat.sub_diag by lia. reflexivity.
Qed.
Lemma obeys_exists ans : exists w, obeys w ans.
Proof.
  exists (fun past => nth (length past - 1) ans Opens). intros past i a L Q. rewrite L.
  replace (Datatypes.S i - 1)%nat with i by lia. now apply nth_error_nth.
Qed.
Lemma the_answer k ans a : k_pc k = AHandshake \/ (exists f i, k_pc k = AFail f i) -> agrees k ans ->
  forall w, obeys w (ans ++ [a]) -> w (k_attempts k) = a /\ the_loop w = answered k w.
Proof.
  intros Hp H w O. apply obeys_app in O as [O1 O2]. unfold agrees in H.
  assert (Q : Datatypes.S (length ans) = length (k_attempts k) /\ forall w, obeys w ans -> the_loop w = answered k w).
  { destruct Hp as [Hp|(f & i & Hp)]; rewrite Hp in H; exact H. }
  destruct Q as [Q1 Q2]. split; [now apply O2|now apply Q2].
Qed.

Lemma k_fail_agrees k st old f ans : k_pc k = AHandshake -> Pre st -> agrees k ans -> agrees (k_fail X cfg k st old f) ans.
Proof.
  intros Hp P H. unfold k_fail. destruct (fail_1006 X cfg st P) as (st' & Q & _ & _). rewrite Q.
  unfold agrees in *. rewrite Hp in H. exact H.
Qed.
Lemma k_handshake_agrees k o k' ans : KInv X cfg k -> k_pc k = AHandshake -> k_handshake X cfg ccfg k o = Some k' -> agrees k ans -> exists ans', agrees k' ans'.
Proof.
  intros (F & L & P & B) Hp. unfold k_handshake. destruct (k_conns k) as [|c old]; [discriminate|].
  rewrite Hp in P. cbn [last_ok] in P. apply unopened_Pre in P. intros H A.
  assert (J : forall st f, Pre st -> Some (k_fail X cfg k st old f) = Some k' -> exists ans', agrees k' ans').
  { intros st f Q W. apply some_inj in W as <-. exists ans. now apply k_fail_agrees. }
  destruct o as [key data|e]; [|exact (J _ _ P H)]. destruct (read_http_response data) as [[status h]|e]; [|exact (J _ _ P H)].
  destruct (legacy_client_handshake ccfg key status h) as [exts sub|uri|e]; try exact (J _ _ P H). cbv zeta in H.
  destruct (p_state (set_exts exts c)) eqn:S; try exact (J (set_exts exts c) _ P H).
  destruct (p_C (set_exts exts c)) eqn:PC; try exact (J (set_exts exts c) _ P H).
  apply some_inj in H as <-. exists (ans ++ [Opens]). unfold agrees. cbn [with_conn k_pc]. intros w O.
  destruct (the_answer k ans Opens (or_introl Hp) A w O) as [W ->]. unfold answered. rewrite W. eexists. reflexivity.
Qed.
Lemma k_resume_agrees k k' ans : k_resume ue k = Some k' -> agrees k ans -> exists ans', agrees k' ans'.
Proof.
  unfold k_resume. destruct (k_conns k) as [|c old]; [discriminate|].
  destruct (k_pc k) as [| |f i| | | |i|] eqn:Hp; try discriminate.
  - destruct (nth_error (p_users c) i) as [[[| | | | | | | | | | | | | | | |r] x]|]; try discriminate. intros H A.
    assert (J : Some (at_pc k (ACancelled InWaitClosed)) = Some k' -> exists ans', agrees k' ans').
    { intros Q. apply some_inj in Q as <-. exists ans. unfold agrees in *. rewrite Hp in A. exact A. }
    assert (M : match f with
                | FRaise e => Some (at_pc k (ARaised e))
                | FRedirect uri => match handle_redirect ue (k_state k) uri with
                                   | Raise e => Some (at_pc k (ARaised e))
                                   | Ok cs => Some (k_next k cs)
                                   end
                end = Some k' -> exists ans', agrees k' ans').
    { assert (Hq : k_pc k = AHandshake \/ exists f i, k_pc k = AFail f i) by (right; eauto).
      destruct f as [uri|e]; [destruct (handle_redirect ue (k_state k) uri) as [cs|e] eqn:R|]; intros Q; apply some_inj in Q as <-.
      - exists (ans ++ [Redirects uri]). pose proof (the_answer k ans (Redirects uri) Hq A) as T.
        assert (Ln : length (ans ++ [Redirects uri]) = length (k_attempts k)).
        { unfold agrees in A. rewrite Hp in A. destruct A as [A _]. rewrite app_length. cbn [length]. lia. }
        unfold k_next. destruct (k_left k) as [|n] eqn:Kl; unfold agrees; cbn [at_pc k_pc k_attempts k_left k_state].
        + intros w O. destruct (T w O) as [W ->]. unfold answered. rewrite W, R, Kl. reflexivity.
        + split; [exact Ln|]. intros w O. destruct (T w O) as [W ->]. unfold answered. rewrite W, R, Kl. reflexivity.
      - exists (ans ++ [Redirects uri]). unfold agrees. cbn [at_pc k_pc]. intros w O.
        destruct (the_answer k ans _ Hq A w O) as [W ->]. unfold answered. rewrite W, R. reflexivity.
      - exists (ans ++ [Fails e]). unfold agrees. cbn [at_pc k_pc]. intros w O.
        destruct (the_answer k ans _ Hq A w O) as [W ->]. unfold answered. rewrite W. reflexivity. }
    destruct r; auto.
  - destruct (nth_error (p_users c) i) as [[[| | | | | | | | | | | | | | | |r] x]|]; try discriminate. intros H A.
    apply some_inj in H as <-. exists ans. unfold agrees in *. rewrite Hp in A. exact A.
Qed.
Lemma kstep_agrees k l k' ans : KInv X cfg k -> kstep X cfg ccfg ue k l = Some k' -> agrees k ans -> exists ans', agrees k' ans'.
Proof.
  intros I H A. destruct l as [o|j l|o| | |]; cbn [kstep] in H.
  - destruct (k_pc k) eqn:Hp; try discriminate. apply some_inj in H as <-. unfold k_create.
    unfold agrees in A. rewrite Hp in A. destruct A as [A1 A2]. cbn [connect_loop] in A2.
    destruct (create_connection (cs_connector (k_state k))) as [[p tls]|e] eqn:Cc.
    2:{ exists ans. exact A2. }
    set (a := {| at_uri := _; at_peer := p; at_tls := tls |}) in *.
    assert (Ln : Datatypes.S (length ans) = length (k_attempts k ++ [a])) by (rewrite app_length; cbn [length]; lia).
    destruct o as [e|].
    + exists (ans ++ [Fails e]). unfold agrees. cbn [k_pc k_attempts]. intros w O. apply obeys_app in O as [O1 O2].
      rewrite (A2 w O1), (O2 (k_attempts k ++ [a])) by (symmetry; exact Ln). reflexivity.
    + exists ans. unfold agrees. cbn [k_pc k_attempts]. split; [exact Ln|]. intros w O. rewrite (A2 w O).
      unfold answered. cbn [k_attempts k_state k_left]. rewrite last_last. reflexivity.
  - destruct (own_step l); [|discriminate]. destruct (nth_error (k_conns k) j) as [st|]; [|discriminate].
    destruct (step X cfg st l) as [st'|]; [|discriminate]. apply some_inj in H as <-. now exists ans.
  - destruct (k_pc k) eqn:Hp; try discriminate. now apply (k_handshake_agrees k o k' ans).
  - now apply (k_resume_agrees k k' ans).
  - unfold agrees in A. destruct (k_pc k) eqn:Hp; try discriminate; apply some_inj in H as <-; exists ans; exact A.
  - unfold k_exit in H. destruct (k_conns k) as [|c old]; [discriminate|]. unfold agrees in A.
    destruct (k_pc k) eqn:Hp; try discriminate. apply some_inj in H as <-. now exists ans.
Qed.
Lemma kexec_agrees ls : forall k k' ans, KInv X cfg k -> agrees k ans -> kexec X cfg ccfg ue k ls = Some k' -> exists ans', agrees k' ans'.
Proof.
  induction ls as [|l ls IH]; intros k k' ans I A H; cbn [kexec] in H; [apply some_inj in H as <-; now exists ans|].
  destruct (kstep X cfg ccfg ue k l) as [k1|] eqn:S; [|discriminate].
  destruct (kstep_agrees k l k1 ans I S A) as [ans' A']. exact (IH k1 k' ans' (kstep_inv X cfg ccfg ue _ _ _ I S) A' H).
Qed.
Lemma kinitial_agrees : agrees (kinitial cs0) [].
Proof. split; [reflexivity|]. intros w _. reflexivity. Qed.

Lemma connect_loop_extends w n : forall st past, exists rest r, connect_loop ue w n st past = (past ++ rest, r).
Proof.
  induction n as [|n IH]; intros st past; cbn [connect_loop]; [exists [], (Failed (SecurityError (s "too many redirects"))); now rewrite app_nil_r|].
  destruct (create_connection (cs_connector st)) as [[p tls]|e]; [|exists [], (Failed e); now rewrite app_nil_r].
  set (a := {| at_uri := _; at_peer := p; at_tls := tls |}). destruct (w (past ++ [a])) as [|uri|e]; [exists [a]; eauto| |exists [a]; eauto].
  destruct (handle_redirect ue st uri) as [st'|e]; [|exists [a]; eauto].
  destruct (IH st' (past ++ [a])) as (rest & r & ->). exists (a :: rest), r. now rewrite <- app_assoc.
Qed.
Lemma agrees_attempts k ans : agrees k ans -> exists w rest r, the_loop w = (k_attempts k ++ rest, r).
Proof.
  intros A. destruct (obeys_exists ans) as [w O]. exists w.
  assert (G : forall r, the_loop w = (k_attempts k, r) -> exists rest r, the_loop w = (k_attempts k ++ rest, r)).
  { intros r ->. exists [], r. now rewrite app_nil_r. }
  assert (J : the_loop w = answered k w -> exists rest r, the_loop w = (k_attempts k ++ rest, r)).
  { intros H. unfold answered in H. destruct (w (k_attempts k)) as [|uri|e]; [exact (G _ H)| |exact (G _ H)].
    destruct (handle_redirect ue (k_state k) uri) as [st|e]; [|exact (G _ H)].
    rewrite H. apply connect_loop_extends. }
  unfold agrees in A. destruct (k_pc k) as [| |f i| |e|[| |]|i|r].
  - destruct A as [_ A]. rewrite (A w O). apply connect_loop_extends.
  - destruct A as [_ A]. now apply J, A.
  - destruct A as [_ A]. now apply J, A.
  - destruct (A w O) as [a Q]. exact (G _ Q).
  - exact (G _ (A w O)).
  - destruct A as [_ A]. rewrite (A w O). apply connect_loop_extends.
  - destruct A as [_ A]. now apply J, A.
  - destruct A as [_ A]. now apply J, A.
  - destruct (A w O) as [a Q]. exact (G _ Q).
  - destruct (A w O) as [a Q]. exact (G _ Q).
Qed.
End Attempts.
