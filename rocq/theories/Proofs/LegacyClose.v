(* The close code of the asyncio connection. *)
From Verif Require Import Base.Prelude Base.PreludeFacts Model.Streams Model.Frames
  Model.LegacyFraming Model.LegacyProtocol Spec.Asyncio
  Proofs.LegacyPrims Proofs.LegacyFields Proofs.LegacyShapes Proofs.LegacyUsers.
Local Open Scope N_scope.

Section Close.
Context {E : Type} (X : ext_ops E) (cfg : config).
Implicit Type st : conn E.

Definition parses_close (f : frame) (x : Z * str) : Prop :=
  f_opcode f = CLOSE /\ parse_close (f_data f) = Ok x.
Definition not_close (f : frame) : Prop := forall x, ~ parses_close f x.
Definition closing_T (t : tpc) : Prop :=
  match t with TCloseDrain _ | TCloseEnsure _ | TDone _ => True | _ => False end.

Definition quiet_T st st' : Prop :=
  p_lost st' = p_lost st /\ p_in st' = p_in st /\ p_close st' = p_close st /\
  (closing_T (p_T st) -> closing_T (p_T st')).

Lemma T_raise_quiet st e : quiet_T st (T_raise X cfg st e).
Proof. destruct (T_raise_shape X cfg st e) as (? & ? & ? & ? & ? & ? & ->). repeat split. Qed.
Lemma after_close_quiet st e : quiet_T st (after_close X cfg st e).
Proof. destruct (after_close_shape X cfg st e) as (? & ? & ? & ? & ? & ? & ->). repeat split. Qed.
Lemma put_message_still st m :
  let st' := put_message X cfg st m in
  p_lost st' = p_lost st /\ p_in st' = p_in st /\ p_close st' = p_close st.
Proof.
  cbv zeta. unfold put_message. destruct (room cfg st); [|repeat split].
  change (p_pop (set_messages _ st)) with (p_pop st).
  destruct (p_pop st); [|repeat split]. destruct (set_result _ _); [repeat split|].
  set (st1 := set_messages _ st). destruct (T_raise_quiet st1 InvalidStateError) as (A & B & C & _).
  now rewrite A, B, C.
Qed.

Lemma on_frame_close st c f :
  let st' := on_frame X cfg st c f in
  p_lost st' = p_lost st /\ p_in st' = p_in st /\
  ((exists x, parses_close f x /\ p_close st' = Some x /\ closing_T (p_T st')) \/
   (not_close f /\ p_close st' = p_close st)).
Proof.
  cbv zeta. unfold on_frame.
  assert (N : f_opcode f <> CLOSE -> not_close f) by (intros H x [H1 _]; congruence).
  assert (D : f_opcode f <> CLOSE -> forall st',
     (p_lost st' = p_lost st /\ p_in st' = p_in st /\ p_close st' = p_close st) ->
     p_lost st' = p_lost st /\ p_in st' = p_in st /\
     ((exists x, parses_close f x /\ p_close st' = Some x /\ closing_T (p_T st')) \/
      (not_close f /\ p_close st' = p_close st))).
  { intros H st' (A & B & C). split; [exact A|]. split; [exact B|]. right. auto. }
  assert (R : forall st1 e, p_lost st1 = p_lost st /\ p_in st1 = p_in st /\ p_close st1 = p_close st ->
     let st' := T_raise X cfg st1 e in
     p_lost st' = p_lost st /\ p_in st' = p_in st /\ p_close st' = p_close st).
  { intros st1 e (A & B & C). destruct (T_raise_quiet st1 e) as (A' & B' & C' & _).
    cbv zeta. rewrite A', B', C'. auto. }
  destruct (f_opcode f) eqn:Op.
  1-3: apply D; [discriminate|]; destruct (read_message cfg c f);
       [apply put_message_still|repeat split|apply R; repeat split].
  - destruct (parse_close (f_data f)) as [x|e] eqn:P.
    + assert (Pf : parses_close f x) by (split; assumption).
      destruct (write_close_frame _ _ _ _ _) as [st2 r] eqn:W.
      apply write_close_frame_shape in W as (o & ex & s0 & ->).
      destruct r as [[e|]|].
      * destruct (T_raise_shape X cfg (set_out o (set_exts ex (set_state s0 (set_close (Some x) st)))) (PyExn e))
          as (? & ? & ? & ? & ? & ? & ->).
        split; [reflexivity|]. split; [reflexivity|]. left. exists x. repeat split; assumption || exact Logic.I.
      * split; [reflexivity|]. split; [reflexivity|]. left. exists x. repeat split; assumption || exact Logic.I.
      * destruct (after_close_shape X cfg (set_out o (set_exts ex (set_state s0 (set_close (Some x) st)))) c)
          as (? & ? & ? & ? & ? & ? & ->).
        split; [reflexivity|]. split; [reflexivity|]. left. exists x. repeat split; assumption || exact Logic.I.
    + assert (Nf : not_close f) by (intros x [_ H]; congruence).
      destruct (R st (PyExn e)) as (A & B & C); [repeat split|]. split; [exact A|]. split; [exact B|]. right. auto.
  - apply D; [discriminate|]. destruct (ensure_open st).
    + destruct (write_frame _ _ _ _ _ _ _ _) as [st2 e] eqn:W. shapes.
      destruct e; [apply R|]; repeat split.
    + apply R; repeat split.
    + repeat split.
  - apply D; [discriminate|]. destruct (receive_pong_shape st (f_data f)) as (? & ? & ->). repeat split.
Qed.

Lemma step_T_close st a st' :
  step_T X cfg st a = Some st' ->
  quiet_T st st' \/
  (p_lost st' = p_lost st /\
   exists c f, p_T st = TRead c /\ p_in st' = p_in st ++ [f] /\
    ((exists x, parses_close f x /\ p_close st' = Some x /\ closing_T (p_T st')) \/
     (not_close f /\ p_close st' = p_close st))).
Proof.
  unfold step_T. intros H.
  assert (G : forall pc, p_T st = pc ->
    (match pc with TNone | TDone _ => False | _ => True end) ->
    (if p_Tcancel st then
      match a with
      | Go => Some (T_raise X cfg match pc with TPut _ _ => set_put None st | _ => st end CancelledError)
      | _ => None
      end
    else
      match pc, a with
      | TRead c, Go => read_frame X cfg st c
      | TPongDrain c, _ =>
          match after_drain X cfg st a with
          | None => None
          | Some (st, EOk) => Some (set_T (TRead c) st)
          | Some (st, ERaise e) => Some (T_raise X cfg st e)
          | Some (st, EWait) => Some (set_T (TPongEnsure c) st)
          end
      | TPongEnsure c, Go =>
          match ensure_open_end st with Some e => Some (T_raise X cfg st e) | None => None end
      | TCloseDrain c, _ =>
          match after_drain X cfg st a with
          | None => None
          | Some (st, EOk) => Some (after_close X cfg st c)
          | Some (st, ERaise e) =>
              Some (if is_closed_exn e then after_close X cfg st c else T_raise X cfg st e)
          | Some (st, EWait) => Some (set_T (TCloseEnsure c) st)
          end
      | TCloseEnsure c, Go =>
          match ensure_open_end st with
          | Some e => Some (if is_closed_exn e then after_close X cfg st c else T_raise X cfg st e)
          | None => None
          end
      | TPut m w, Go =>
          if fut_done (get_fut (p_puts st) w) then Some (put_message X cfg (set_put None st) m) else None
      | _, _ => None
      end) = Some st' ->
    quiet_T st st' \/
    (p_lost st' = p_lost st /\
     exists c f, p_T st = TRead c /\ p_in st' = p_in st ++ [f] /\
      ((exists x, parses_close f x /\ p_close st' = Some x /\ closing_T (p_T st')) \/
       (not_close f /\ p_close st' = p_close st)))).
  { clear H. intros pc HT Hpc H.
    assert (Rs : forall st1 e, quiet_T st st1 -> quiet_T st (T_raise X cfg st1 e)).
    { intros st1 e (A & B & C & _).
      destruct (T_raise_shape X cfg st1 e) as (? & ? & ? & ? & ? & ? & ->). repeat split; assumption. }
    assert (Ac : forall st1 e, quiet_T st st1 -> quiet_T st (after_close X cfg st1 e)).
    { intros st1 e (A & B & C & _).
      destruct (after_close_shape X cfg st1 e) as (? & ? & ? & ? & ? & ? & ->). repeat split; assumption. }
    destruct (p_Tcancel st).
    { destruct a; try discriminate. apply some_inj in H as <-. left. apply Rs.
      destruct pc; repeat split; auto. }
    destruct pc; try contradiction.
    - destruct a; try discriminate. unfold read_frame in H.
      assert (G : match run (legacy_read X (negb (c_client cfg)) (read_limit cfg c)) (p_reader st) (p_exts st) with
        | OSusp _ _ _ => None
        | OFail e r exts => Some (T_raise X cfg (set_reader r (set_exts exts st)) (PyExn e))
        | ODone f r exts =>
          let st := set_in (p_in st ++ [f]) (set_reader r (set_exts exts st)) in
          Some (on_frame X cfg st c f)
        end = Some st' ->
        quiet_T st st' \/
        (p_lost st' = p_lost st /\
         exists c f, p_T st = TRead c /\ p_in st' = p_in st ++ [f] /\
          ((exists x, parses_close f x /\ p_close st' = Some x /\ closing_T (p_T st')) \/
           (not_close f /\ p_close st' = p_close st)))).
      { clear H. destruct (run _ _ _) as [? ? ?|f r ex|e r ex]; cbv zeta; try discriminate; intros H;
          apply some_inj in H as <-.
        - right. set (st1 := set_in _ _). pose proof (on_frame_close st1 c f) as (A & B & C).
          split; [exact A|]. exists c, f. split; [exact HT|]. split; [exact B|]. exact C.
        - left. apply Rs. repeat split; auto. }
      destruct (p_lost st) as [[o|]|] eqn:L; [|now apply G|now apply G].
      apply some_inj in H as <-. left. apply Rs. repeat split; auto.
    - destruct (after_drain X cfg st a) as [[st2 r]|] eqn:D; [|discriminate]. shapes.
      left. destruct r; apply some_inj in H as <-; [|apply Rs|];
        (split; [reflexivity|split; [reflexivity|split; [reflexivity|]]]); intros Q; rewrite HT in Q; destruct Q.
    - destruct a; try discriminate. destruct (ensure_open_end st); [|discriminate].
      apply some_inj in H as <-. left. apply Rs. repeat split; auto.
    - destruct (after_drain X cfg st a) as [[st2 r]|] eqn:D; [|discriminate]. shapes.
      left. destruct r; apply some_inj in H as <-; [apply Ac| |]; repeat split; auto.
      all: destruct (is_closed_exn e); [apply Ac|apply Rs]; repeat split; auto.
    - destruct a; try discriminate. destruct (ensure_open_end st); [|discriminate].
      apply some_inj in H as <-. left. destruct (is_closed_exn p); [apply Ac|apply Rs]; repeat split; auto.
    - destruct a; try discriminate. destruct (fut_done _); [|discriminate].
      apply some_inj in H as <-. left.
      pose proof (put_message_still (set_put None st) m) as (A & B & C).
      split; [exact A|]. split; [exact B|]. split; [exact C|]. intros Q; rewrite HT in Q; destruct Q. }
  destruct (p_T st) eqn:HT; try discriminate; (eapply G; [reflexivity|exact Logic.I|exact H]).
Qed.

Definition Code st : Prop :=
  (~ closing_T (p_T st) -> Forall not_close (p_in st)) /\
  ((exists l f x, p_in st = l ++ [f] /\ Forall not_close l /\ parses_close f x /\ p_close st = Some x) \/
   (Forall not_close (p_in st) /\
    p_close st = match p_lost st with Some _ => Some (1006%Z, []) | None => None end)).

Definition Lost st : Prop := p_lost st <> None <-> p_state st = Closed.
Definition Started st : Prop := p_T st <> TNone -> p_state st <> Connecting.
Definition Base st : Prop := Pings st /\ Lost st /\ Out st /\ Started st.

Lemma step_preserves (I : conn E -> Prop) st l st' :
  (forall st1 st2, I st1 -> prim cfg True st1 st2 -> I st2) ->
  (forall st1 f, I st1 -> I (record_frame st1 f)) ->
  I st -> step X cfg st l = Some st' -> I st'.
Proof.
  intros HI HF H0 H. eapply (exec_invariant X cfg True I st [l]); eauto. cbn [exec]. now rewrite H.
Qed.
Lemma exec_steps (I : conn E -> Prop) st ls st' :
  (forall st1 l st2, I st1 -> step X cfg st1 l = Some st2 -> I st2) ->
  I st -> exec X cfg st ls = Some st' -> I st'.
Proof.
  intros HI. revert st. induction ls as [|l ls IH]; cbn [exec]; intros st H0 H.
  - now apply some_inj in H as <-.
  - destruct (step X cfg st l) as [st1|] eqn:S1; [|discriminate].
    apply (IH st1); [exact (HI _ _ _ H0 S1)|exact H].
Qed.

Lemma Pings_step st l st' : Pings st -> step X cfg st l = Some st' -> Pings st'.
Proof.
  apply step_preserves; [intros; eapply Pings_prim; eauto|intros; now apply Pings_frame].
Qed.
Lemma Out_step st l st' : Out st -> step X cfg st l = Some st' -> Out st'.
Proof.
  apply step_preserves; [intros; eapply Out_prim; eauto|intros; now apply Out_frame].
Qed.
Lemma rank_step st l st' : step X cfg st l = Some st' -> (rank (p_state st) <= rank (p_state st'))%nat.
Proof.
  apply (step_preserves (fun st' => (rank (p_state st) <= rank (p_state st'))%nat)); [| |lia].
  - intros st1 st2. apply rank_prim.
  - intros st1 f. now pose proof (record_frame_fields st1 f) as (-> & _).
Qed.
Lemma Lost_step st l st' : Pings st' -> Lost st -> step X cfg st l = Some st' -> Lost st'.
Proof.
  intros P L H. split; [|intros HC; destruct P as (_ & _ & _ & _ & P5); now apply P5].
  refine (step_preserves (fun st => p_lost st <> None -> p_state st = Closed) _ _ _ _ _ _ H).
  - intros st2 st3 H2 Pr. destruct Pr; try exact H2.
    + intros L'. specialize (H2 L'). congruence.
    + intros L'. specialize (H2 L'). congruence.
    + intros L'. specialize (H2 L'). congruence.
    + intros _. apply connection_lost_fields.
  - intros st2 f H2. pose proof (record_frame_fields st2 f) as (A & _ & _ & B & _). now rewrite A, B.
  - apply L.
Qed.
Lemma rank_Connecting x : x <> Connecting <-> (1 <= rank x)%nat.
Proof. destruct x; cbn [rank]; split; intros; congruence || lia || discriminate. Qed.
Lemma step_T_not_none st a st' : step_T X cfg st a = Some st' -> p_T st <> TNone.
Proof. unfold step_T. intros H E0. rewrite E0 in H. discriminate. Qed.
Lemma Started_step st l st' : Started st -> step X cfg st l = Some st' -> Started st'.
Proof.
  intros S0 H. unfold Started. rewrite rank_Connecting. pose proof (rank_step _ _ _ H) as R.
  assert (G : p_T st <> TNone -> (1 <= rank (p_state st'))%nat).
  { intros N. specialize (S0 N). rewrite rank_Connecting in S0. lia. }
  assert (D : (forall a, l <> LT a) -> l <> LOpen -> p_T st' <> TNone -> (1 <= rank (p_state st'))%nat).
  { intros N1 N2. destruct (step_T_alone X cfg st l st' H N1 N2) as [-> _]. exact G. }
  destruct l; try (apply D; [intros ?; discriminate|discriminate]).
  - cbn [step] in H. intros _. destruct (p_state st) eqn:Es; try discriminate.
    destruct (p_C st); try discriminate. apply some_inj in H as <-. cbn. lia.
  - intros _. cbn [step] in H. apply G. now apply step_T_not_none in H.
Qed.
Lemma Base_step st l st' : Base st -> step X cfg st l = Some st' -> Base st'.
Proof.
  intros (P & L & O & S0) H. pose proof (Pings_step _ _ _ P H) as P'.
  split; [exact P'|]. split; [now apply (Lost_step st l)|]. split; [now apply (Out_step st l)|].
  now apply (Started_step st l).
Qed.
Lemma Base_initial exts : Base (initial exts).
Proof.
  split; [apply Pings_initial|]. split; [split; cbn; congruence|]. split; [reflexivity|].
  intros H. now contradiction H.
Qed.
Lemma Base_exec exts ls st : exec X cfg (initial exts) ls = Some st -> Base st.
Proof.
  apply (exec_steps Base); [|apply Base_initial]. intros; eapply Base_step; eauto.
Qed.

Lemma Code_step st l st' : Base st -> Code st -> step X cfg st l = Some st' -> Code st'.
Proof.
  intros (P & L & _ & S0) [C1 C2] H.
  assert (Same : p_T st' = p_T st -> p_in st' = p_in st -> p_close st' = p_close st ->
                 p_lost st' = p_lost st -> Code st').
  { intros A1 A2 A3 A4. unfold Code. rewrite A1, A2, A3, A4. split; assumption. }
  destruct l; cbn [step] in H.
  - destruct (p_state st) eqn:Es; try discriminate. destruct (p_C st); try discriminate.
    assert (HT : p_T st = TNone).
    { destruct (p_T st) eqn:E0; try reflexivity; exfalso; apply S0; congruence. }
    rewrite HT in C1. specialize (C1 (fun x => x)).
    apply some_inj in H as <-. unfold connection_open.
    destruct C2 as [(l & f & x & Q1 & Q2 & Q3 & Q4)|[Q1 Q2]].
    + exfalso. rewrite Q1, Forall_app in C1. destruct C1 as [_ C1]. inversion C1; subst. firstorder.
    + split; [intros _; exact Q1|]. right. split; [exact Q1|exact Q2].
  - destruct (fail_connection _ _ _ _) as [st2 e2] eqn:F. apply some_inj in H as <-. shapes.
    now apply Same.
  - destruct (r_eof _); [discriminate|]. apply some_inj in H as <-. now apply Same.
  - destruct (r_eof _); [discriminate|]. apply some_inj in H as <-. now apply Same.
  - assert (HC : p_state st <> Closed) by (destruct (p_state st); discriminate).
    assert (HL : p_lost st = None).
    { destruct (p_lost st) eqn:E0; [|reflexivity]. exfalso. apply HC, L. congruence. }
    assert (H' : connection_lost st o closing = st') by (destruct (p_state st); congruence).
    clear H. subst st'.
    destruct (connection_lost_spec st o closing P HC) as (futs & code & reason & A1 & A2 & A3 & _).
    pose proof (connection_lost_fields st o closing) as (_ & _ & _ & B & _).
    assert (B' : p_T (connection_lost st o closing) = p_T st)
      by (destruct (connection_lost_shape st o closing) as (? & ? & ? & ? & ? & ->); reflexivity).
    unfold Code. rewrite B, B', A1, A3. split; [exact C1|].
    destruct C2 as [(l & f & x & Q1 & Q2 & Q3 & Q4)|[Q1 Q2]].
    + left. exists l, f, x. rewrite Q4 in A2. split; [exact Q1|]. split; [exact Q2|]. split; [exact Q3|]. congruence.
    + right. split; [exact Q1|]. rewrite HL in Q2. rewrite Q2 in A2. f_equal. exact A2.
  - apply some_inj in H as <-. now apply Same.
  - apply some_inj in H as <-. now apply Same.
  - apply some_inj in H as <-. now apply Same.
  - destruct (nth_error _ _) as [[[] ?]|]; try discriminate; apply some_inj in H as <-; now apply Same.
  - apply step_T_close in H as [(A1 & A2 & A3 & A4)|(A1 & c & f & A2 & A3 & A4)].
    + split; [rewrite A2; tauto|]. now rewrite A1, A2, A3.
    + assert (N : Forall not_close (p_in st)) by (apply C1; rewrite A2; intros []).
      destruct A4 as [(x & B1 & B2 & B3)|[B1 B2]].
      * split; [tauto|]. left. exists (p_in st), f, x. auto.
      * assert (N' : Forall not_close (p_in st')).
        { rewrite A3. apply Forall_app. split; [exact N|]. constructor; [exact B1|constructor]. }
        split; [intros _; exact N'|]. right. split; [exact N'|]. rewrite B2, A1.
        destruct C2 as [(l & f0 & x & Q1 & Q2 & Q3 & Q4)|[Q1 Q2]]; [|exact Q2].
        exfalso. rewrite Q1, Forall_app in N. destruct N as [_ N]. inversion N; subst. firstorder.
  - apply step_K_shape in H as (? & ? & ? & ? & ? & ? & ? & ? & ->). now apply Same.
  - apply step_C_shape in H as (? & ? & ? & ? & ? & ->). now apply Same.
  - apply step_user_still in H as (H1 & H2 & H3 & H4 & _). now apply Same.
Qed.
Lemma Code_exec exts ls st : exec X cfg (initial exts) ls = Some st -> Base st /\ Code st.
Proof.
  apply (exec_steps (fun st => Base st /\ Code st)).
  - intros st1 l st2 [B C] H. split; [eapply Base_step; eauto|eapply Code_step; eauto].
  - split; [apply Base_initial|]. split; [intros _; constructor|]. right. split; [constructor|reflexivity].
Qed.

Lemma exec_app st ls1 ls2 :
  exec X cfg st (ls1 ++ ls2) =
  match exec X cfg st ls1 with Some st1 => exec X cfg st1 ls2 | None => None end.
Proof.
  revert st. induction ls1 as [|l ls1 IH]; intros st; cbn [app exec]; [reflexivity|].
  destruct (step X cfg st l); [apply IH|reflexivity].
Qed.

Lemma p_lost_step st l st' :
  step X cfg st l = Some st' ->
  (p_lost st' = p_lost st /\ (forall o c, l <> LLost o c)) \/
  (exists o c, l = LLost o c /\ p_state st <> Closed).
Proof.
  intros H.
  assert (S : (forall o c, l <> LLost o c) -> p_lost st' = p_lost st ->
    (p_lost st' = p_lost st /\ (forall o c, l <> LLost o c)) \/
    (exists o c, l = LLost o c /\ p_state st <> Closed)) by auto.
  destruct l; cbn [step] in H; try (apply S; [intros; discriminate|]).
  - destruct (p_state st); try discriminate. destruct (p_C st); try discriminate.
    now apply some_inj in H as <-.
  - destruct (fail_connection _ _ _ _) as [st2 e2] eqn:F. apply some_inj in H as <-. now shapes.
  - destruct (r_eof _); [discriminate|]. now apply some_inj in H as <-.
  - destruct (r_eof _); [discriminate|]. now apply some_inj in H as <-.
  - right. exists o, closing. split; [reflexivity|]. destruct (p_state st); discriminate.
  - now apply some_inj in H as <-.
  - now apply some_inj in H as <-.
  - now apply some_inj in H as <-.
  - destruct (nth_error _ _) as [[[] ?]|]; try discriminate; now apply some_inj in H as <-.
  - apply step_T_close in H as [(A1 & _)|(A1 & _)]; exact A1.
  - now apply step_K_shape in H as (? & ? & ? & ? & ? & ? & ? & ? & ->).
  - now apply step_C_shape in H as (? & ? & ? & ? & ? & ->).
  - apply step_user_still in H as (_ & _ & _ & H & _). exact H.
Qed.

Lemma prim_in st st' : prim cfg True st st' -> p_in st' = p_in st.
Proof. destruct 1; try reflexivity. apply connection_lost_fields. Qed.
Lemma reach_in st st' : reach cfg True st st' -> p_in st' = p_in st.
Proof. induction 1 as [|a c R IH P]; [reflexivity|]. apply prim_in in P. congruence. Qed.

Lemma pong_step_state st l f st' :
  step X cfg st l = Some st' -> p_in st' = p_in st ++ [f] -> f_opcode f = PONG ->
  exists r x c, p_T st = TRead c /\
  st' = set_T (TRead c) (receive_pong (set_in (p_in st ++ [f]) (set_reader r (set_exts x st))) (f_data f)).
Proof.
  intros H I Hf. apply (step_reach X cfg True) in H; [|auto]; destruct H as [st2 R|c f' st1 st2 Rd R1 I1 _ _ R2].
  - apply reach_in in R. rewrite R in I. apply (f_equal (@length frame)) in I.
    rewrite app_length in I. cbn [length] in I. lia.
  - assert (f' = f).
    { apply reach_in in R2. pose proof (record_frame_fields st1 f') as (_ & _ & _ & _ & Q & _).
      rewrite Q, I1, I in R2. apply app_inj_tail in R2. now destruct R2. }
    subst f'. destruct Rd as (_ & HT & _ & _ & r & x & _ & ->). exists r, x, c. split; [exact HT|].
    unfold on_frame. now rewrite Hf.
Qed.
Lemma pong_step st l f st' :
  step X cfg st l = Some st' -> p_in st' = p_in st ++ [f] -> f_opcode f = PONG ->
  p_pings st' = p_pings (receive_pong st (f_data f)) /\
  p_pongs st' = p_pongs (receive_pong st (f_data f)).
Proof.
  intros H I Hf. destruct (pong_step_state _ _ _ _ H I Hf) as (r & x & c & _ & ->).
  unfold receive_pong. change (has_ping (set_in _ _) (f_data f)) with (has_ping st (f_data f)).
  destruct (has_ping st (f_data f)); [|split; reflexivity].
  cbn [p_pings p_pongs set_in set_reader set_exts].
  destruct (acknowledge _ _ _). split; reflexivity.
Qed.

Lemma abort_futs_success e pings futs w :
  succeeded (fst (abort_futs e pings futs)) w -> succeeded futs w.
Proof.
  revert futs. induction pings as [|[d w0] pings IH]; cbn [abort_futs]; intros futs; [auto|].
  destruct (fut_done _); [auto|]. intros H. apply IH in H. unfold succeeded in *.
  destruct (Nat.eq_dec w0 w) as [->|N]; [|now rewrite nth_error_replace_neq in H by exact N].
  destruct (Nat.lt_ge_cases w (length futs)) as [L|G].
  - rewrite nth_error_replace_eq in H by exact L. discriminate.
  - assert (Q : nth_error (replace w (FExn e) futs) w = None)
      by (apply nth_error_None; now rewrite length_replace).
    congruence.
Qed.
Lemma prim_success st st' w : prim cfg True st st' -> succeeded (p_pongs st') w -> succeeded (p_pongs st) w.
Proof.
  destruct 1; try (intros Q; exact Q).
  - cbn [p_pongs set_pings set_pongs]. unfold succeeded. intros Q.
    destruct (Nat.lt_ge_cases w (length (p_pongs st))) as [L|G].
    + now rewrite nth_error_app1 in Q by exact L.
    + rewrite nth_error_app2 in Q by exact G. destruct (w - length (p_pongs st))%nat as [|[]]; discriminate.
  - unfold connection_lost. cbv zeta.
    set (st2 := match p_close _ with None => _ | Some _ => _ end).
    assert (Q : p_pongs st2 = p_pongs st) by (unfold st2; destruct (p_close _); reflexivity).
    clearbody st2. rewrite Q. pose proof (abort_futs_success (connection_closed_exc st2) (p_pings st2) (p_pongs st) w) as A.
    destruct (abort_futs _ _ _) as [futs []]; exact A.
Qed.
Lemma reach_success st st' w : reach cfg True st st' -> succeeded (p_pongs st') w -> succeeded (p_pongs st) w.
Proof. induction 1 as [|a c R IH P]; [auto|]. intros Q. apply IH. exact (prim_success _ _ _ P Q). Qed.
Lemma success_step st l st' w :
  step X cfg st l = Some st' -> succeeded (p_pongs st') w ->
  succeeded (p_pongs st) w \/ exists f, l = LT Go /\ p_in st' = p_in st ++ [f] /\ f_opcode f = PONG.
Proof.
  intros H S. apply (step_reach X cfg True) in H; [|auto]; destruct H as [st2 R|c f st1 st2 Rd R1 I1 _ _ R2].
  - left. eapply reach_success; eauto.
  - pose proof (reach_in _ _ R2) as Q. pose proof (record_frame_fields st1 f) as (_ & _ & _ & _ & Q1 & _).
    rewrite Q1, I1 in Q. apply (reach_success _ _ _ R2) in S.
    destruct Rd as (-> & _).
    destruct (f_opcode f) eqn:Hf; try (left; apply (reach_success _ _ _ R1);
      unfold record_frame in S; rewrite Hf in S; exact S).
    + left. apply (reach_success _ _ _ R1). unfold record_frame in S. rewrite Hf in S.
      destruct (parse_close _); exact S.
    + right. exists f. auto.
Qed.

Lemma connection_closed_exc_spec st code reason :
  p_close st = Some (code, reason) -> connection_closed (connection_closed_exc st) code reason.
Proof.
  intros H. unfold connection_closed_exc, connection_closed. rewrite H.
  destruct (Z.eqb_spec code 1000); cbn [orb]; [left; auto|].
  destruct (Z.eqb_spec code 1001); [left; auto|right; split; [tauto|reflexivity]].
Qed.
End Close.
