(* The asyncio connection with the permessage-deflate extension. *)
From Verif Require Import Base.Prelude Base.PreludeFacts Base.Utf8 Model.Streams Model.Frames Model.PermessageDeflate
  Model.LegacyFraming Model.LegacyProtocol Spec.Rfc6455 Spec.FrameSpec Spec.Messages Spec.History Spec.Deflate Spec.Asyncio
  Proofs.StreamsFacts Proofs.AtomicFacts Proofs.FramesFacts Proofs.WireUnique Proofs.DeflateFacts Proofs.DeflateRun
  Proofs.LegacyClose Proofs.LegacyMessages Proofs.LegacyWire Proofs.LegacyRecv Proofs.LegacySend Proofs.LegacyGrowth Proofs.LegacyRead Proofs.LegacyAuthors Proofs.LegacyEndToEnd
  Properties.AsyncioCalls Properties.AsyncioSends.
Local Open Scope N_scope.

Lemma utf8_encode_length t : forall data, utf8_encode t = Ok data -> lenN data <= 4 * lenN t.
Proof.
  induction t as [|c t IH]; intros data; cbn [utf8_encode]; [intros H; apply ok_inj in H as <-; cbn; lia|].
  destruct (utf8_encode_char c) as [x|] eqn:C; [|discriminate].
  destruct (utf8_encode t) as [y|] eqn:Y; [|discriminate]. intros H. apply ok_inj in H as <-.
  specialize (IH y eq_refl).
  assert (L : (length x <= 4)%nat).
  { unfold utf8_encode_char in C. repeat (match type of C with context [if ?b then _ else _] => destruct b end);
      try discriminate; apply some_inj in C as <-; cbn [length]; lia. }
  unfold lenN in *. rewrite app_length. cbn [length]. lia.
Qed.

Section Deflate.
Context {zl : zlib} (sync : z_comp zl -> z_decomp zl -> Prop).
Context (Zc : correct_zlib zl sync) (Rl : reports_limit zl sync) (Ex : expands_little zl).
Notation X := (pmd_ops zl).
Implicit Types p q : pmd zl.

(* ---- encoding ---- *)

Definition ready p : Prop := can_compress zl (p_local_bits p) (p_settings p).
Lemma encode_settings p f : let p' := fst (pmd_encode p f) in
  p_local_bits p' = p_local_bits p /\ p_settings p' = p_settings p.
Proof.
  assert (D : forall p f, p_local_bits (fst (encode_data p f)) = p_local_bits p /\ p_settings (fst (encode_data p f)) = p_settings p).
  { clear. intros p f. unfold encode_data. destruct (p_encoder p) as [c|]; [|now split]. destruct (z_compress zl c (f_data f)) as [c1 x].
    destruct (z_flush zl c1) as [c2 y]. cbn [fst]. destruct (f_fin f && p_local_nct p); now split. }
  unfold pmd_encode. destruct (is_ctrl _); [now split|]. destruct (negb _); [|apply D].
  destruct (p_local_nct p); [|apply D]. destruct (z_compressobj _ _ _); [|now split]. apply (D (set_encoder p (Some a))).
Qed.
Lemma same_ready p p' : same_enc p p' -> ready p' -> ready p.
Proof. unfold ready. intros (_ & -> & -> & _). auto. Qed.
Lemma encode_ready p f : ready p -> ready (fst (pmd_encode p f)).
Proof. unfold ready. destruct (encode_settings p f) as [-> ->]. auto. Qed.
Lemma encode_fails p f e : ready p -> snd (pmd_encode p f) = Raise e -> fst (pmd_encode p f) = p.
Proof.
  assert (D : forall p f e, snd (encode_data p f) = Raise e -> p_encoder p = None /\ fst (encode_data p f) = p).
  { clear. intros p f e. unfold encode_data. destruct (p_encoder p) as [c|]; [|now split]. destruct (z_compress zl c (f_data f)) as [c1 x].
    destruct (z_flush zl c1) as [c2 y]. discriminate. }
  intros [c Hc]. unfold pmd_encode. destruct (is_ctrl _); [discriminate|]. destruct (negb _); [|apply D].
  destruct (p_local_nct p); [|apply D]. rewrite Hc. intros H. apply D in H as [H _]. discriminate.
Qed.
Lemma encode_size p f g : snd (pmd_encode p f) = Ok g ->
  (is_ctrl (f_opcode f) = true /\ g = f) \/ (lenN (f_data g) <= 15 * lenN (f_data f) + 15).
Proof.
  assert (D : forall p f g, snd (encode_data p f) = Ok g -> lenN (f_data g) <= 15 * lenN (f_data f) + 15).
  { clear p f g. intros p f g. unfold encode_data. destruct (p_encoder p) as [c|]; [|discriminate]. destruct (z_compress zl c (f_data f)) as [c1 x] eqn:Hx.
    destruct (z_flush zl c1) as [c2 y] eqn:Hy. cbn [snd]. intros H. apply ok_inj in H as <-. cbn [replace_data f_data].
    pose proof (Ex c (f_data f) c1 x c2 y Hx Hy) as L. unfold lenZ, lenN in *.
    destruct (f_fin f && _); [rewrite firstn_length|]; lia. }
  unfold pmd_encode. destruct (is_ctrl _); [intros H; apply ok_inj in H as <-; auto|]. intros H. right. revert H.
  destruct (negb _); [|apply D]. destruct (p_local_nct p); [|apply (D p (replace_rsv1 f true))].
  destruct (z_compressobj _ _ _) as [c|]; [|discriminate]. apply (D (set_encoder p (Some c)) (replace_rsv1 f true)).
Qed.

Fixpoint enc_end p (l : list frame) : pmd zl :=
  match l with [] => p | f :: l => enc_end (fst (pmd_encode p f)) l end.
Lemma encodes_app l1 : forall p l2, encodes p (l1 ++ l2) = encodes p l1 ++ encodes (enc_end p l1) l2.
Proof. induction l1 as [|f l1 IH]; intros p l2; [reflexivity|]. cbn [app encodes enc_end]. now rewrite IH. Qed.
Lemma enc_end_app l1 : forall p l2, enc_end p (l1 ++ l2) = enc_end (enc_end p l1) l2.
Proof. induction l1 as [|f l1 IH]; intros p l2; [reflexivity|]. cbn [app enc_end]. now rewrite IH. Qed.
Lemma enc_end_same l : forall p p', same_enc p p' -> same_enc (enc_end p l) (enc_end p' l).
Proof. induction l as [|f l IH]; intros p p' S0; [exact S0|]. cbn [enc_end]. apply IH. now apply encode_same. Qed.

(* ---- writing ---- *)

Section Write.
Context (cfg : config) (keys : forall n, length (c_key cfg n) = 4%nat).
Definition wrote (st st' : conn (pmd zl)) : Prop :=
  forall p, p_exts st = [p] -> ready p ->
  exists p' new gs, p_exts st' = [p'] /\ ready p' /\ p_out st' = p_out st ++ new /\
    encodes p (map o_frame new) = map Ok gs /\ same_enc p' (enc_end p (map o_frame new)) /\
    Forall2 (framed (c_client cfg)) gs (map o_bytes new) /\ Forall (fun x => no_rsv (o_frame x)) new.
Lemma wrote_same st st' : p_out st' = p_out st -> p_exts st' = p_exts st -> wrote st st'.
Proof.
  intros O Q p Hp Hr. exists p, [], []. rewrite O, Q, app_nil_r. split; [exact Hp|]. split; [exact Hr|]. split; [reflexivity|].
  split; [reflexivity|]. split; [apply same_enc_refl|]. split; constructor.
Qed.
Lemma wrote_trans st st1 st2 : wrote st st1 -> wrote st1 st2 -> wrote st st2.
Proof.
  intros W1 W2 p Hp Hr. destruct (W1 p Hp Hr) as (p1 & n1 & g1 & Q1 & R1 & O1 & E1 & S1 & F1 & N1).
  destruct (W2 p1 Q1 R1) as (p2 & n2 & g2 & Q2 & R2 & O2 & E2 & S2 & F2 & N2).
  exists p2, (n1 ++ n2), (g1 ++ g2). split; [exact Q2|]. split; [exact R2|]. rewrite O2, O1, app_assoc, !map_app. split; [reflexivity|].
  rewrite encodes_app, enc_end_app, E1, <- E2. split; [f_equal; apply encodes_same; apply (fun H => H); clear -S1; unfold same_enc in *; intuition congruence|].
  split; [eapply same_enc_trans; [exact S2|now apply enc_end_same]|].
  split; [now apply Forall2_app|]. apply Forall_app. now split.
Qed.
Definition Sm (f : frame) : Prop := is_ctrl (f_opcode f) = true \/ lenN (f_data f) < 2 ^ 59.
Lemma wrote_write st by_ f st' e : Sm f -> write X cfg st by_ f = (st', e) -> wrote st st'.
Proof.
  intros Hs. unfold write. destruct (serialize _ _ _ _ _) as [exts r] eqn:Sr. intros H p Hp Hr.
  rewrite Hp in Sr. unfold serialize in Sr. 
  destruct (check f) as [[]|] eqn:Ck.
  2: { apply pair_equal_spec in Sr as [<- <-]. apply pair_equal_spec in H as [<- _]. apply (wrote_same st); [reflexivity|now rewrite Hp|exact Hp|exact Hr]. }
  apply (check_acceptable f None) in Ck. destruct Ck as (V1 & V2 & V3 & _ & V4).
  cbn [encode_in_order ext_encode pmd_ops] in Sr.
  destruct (pmd_encode p f) as [p1 [g|x]] eqn:En.
  - apply pair_equal_spec in Sr as [<- <-].
    destruct (wire_succeeds g (c_client cfg) (c_key cfg (length (p_out st))) (keys _)) as [w Hw].
    { destruct (encode_size p f g) as [[Cf ->]|L]; [now rewrite En| |].
      - assert (L : (length (f_data f) <= 125)%nat). { apply V4. cbn. destruct (f_opcode f); try discriminate; unfold control_opcode; cbn; auto. }
        unfold lenN. lia.
      - destruct Hs as [Cf|Hs]; [|lia]. unfold pmd_encode in En. rewrite Cf in En. apply pair_equal_spec in En as [_ En]. apply ok_inj in En as <-.
        assert (L' : (length (f_data f) <= 125)%nat). { apply V4. cbn. destruct (f_opcode f); try discriminate; unfold control_opcode; cbn; auto. }
        unfold lenN. lia. }
    rewrite Hw in H. apply pair_equal_spec in H as [<- _].
    exists p1, [LegacyProtocol.Sent by_ f w], [g]. cbn [p_exts set_out set_exts p_out map o_frame encodes enc_end o_bytes]. rewrite En. cbn [fst snd].
    split; [reflexivity|]. split; [replace p1 with (fst (pmd_encode p f)) by (now rewrite En); now apply encode_ready|].
    split; [reflexivity|]. split; [reflexivity|]. split; [apply same_enc_refl|]. split.
    + constructor; [|constructor]. destruct (wire_layout _ _ _ _ (keys _) Hw) as (ext & L & _).
      exists (key_opt (c_client cfg) (c_key cfg (length (p_out st)))). split; [now exists ext|].
      pose proof (keys (length (p_out st))) as Hk. revert Hk. generalize (c_key cfg (length (p_out st))).
      intros key Hk. destruct key as [|? [|? [|? [|? [|]]]]]; try discriminate Hk. now destruct (c_client cfg).
    + constructor; [|constructor]. cbn in V1, V2, V3. now repeat split.
  - apply pair_equal_spec in Sr as [<- <-]. apply pair_equal_spec in H as [<- _].
    assert (p1 = p) as ->.
    { replace p1 with (fst (pmd_encode p f)) by (now rewrite En). apply (encode_fails p f x Hr). now rewrite En. }
    apply (wrote_same st); [reflexivity|now rewrite Hp|exact Hp|exact Hr].
Qed.
Lemma wrote_read st exts0 exts r f g n : decode_reversed X exts0 g n = (exts, r) -> exts0 = p_exts st ->
  wrote st (set_in f (set_reader (p_reader st) (set_exts exts st))).
Proof.
  intros D -> p Hp Hr. rewrite Hp in D. cbn [decode_reversed ext_decode pmd_ops] in D.
  destruct (pmd_decode p g n) as [p1 r1] eqn:Dq. apply pair_equal_spec in D as [<- <-].
  assert (S1 : same_enc p1 p) by (replace p1 with (fst (pmd_decode p g n)) by (now rewrite Dq); apply decode_enc).
  exists p1, [], []. cbn [p_exts set_in set_reader set_exts p_out]. rewrite app_nil_r. split; [reflexivity|].
  split; [eapply same_ready; eassumption|]. split; [reflexivity|]. split; [reflexivity|]. split; [exact S1|]. split; constructor.
Qed.
Lemma small_prepared d op data fin op' : small_item d -> prepare_data d = Ok (op, data) -> Sm (mkframe fin op' data).
Proof.
  intros S0 P. right. cbn [f_data mkframe]. destruct d; cbn [small_item prepare_data] in *; [|apply ok_inj, pair_equal_spec in P as [_ <-]; lia|discriminate].
  destruct (utf8_encode x) as [y|] eqn:U; [|discriminate]. apply ok_inj, pair_equal_spec in P as [_ <-].
  apply utf8_encode_length in U. lia.
Qed.
Definition state_of {A B} (o : outcome A B) : A := match o with OSusp _ _ x | ODone _ _ x | OFail _ _ x => x end.
Lemma pure_run {A B} (g : gen A B) : pure_reads g -> forall r x, state_of (run g r x) = x.
Proof.
  induction g; cbn [pure_reads run]; intros H0 r0 x0; auto; try contradiction.
  - destruct (find_lf_from _ _); [now apply H|]. destruct (r_eof r0); [now apply H|reflexivity].
  - repeat (match goal with |- context [if ?b then _ else _] => destruct b end); try reflexivity; now apply H.
  - destruct (r_eof r0); [now apply H|reflexivity].
  - repeat (match goal with |- context [if ?b then _ else _] => destruct b end); try reflexivity; now apply H.
Qed.
Lemma legacy_read_fail {E} (X0 : ext_ops E) mask max r exts e r' exts' :
  run (legacy_read X0 mask max) r exts = OFail e r' exts' ->
  exts' = exts \/ exists g res, decode_reversed X0 exts g max = (exts', res).
Proof.
  change (legacy_read X0) with (frame_parse X0). unfold frame_parse, parse_frame. rewrite run_gbind.
  destruct (run (parse_wire mask max) r exts) as [g0 r0 x|g r0 x|e0 r0 x] eqn:R; try discriminate.
  - apply parse_wire_inv in R as (-> & _). simpl.
    destruct (decode_reversed X0 exts g max) as [ex res] eqn:D. intros H. right. exists g, res. rewrite D. f_equal.
    destruct res as [f1|]; simpl in H; [|congruence]. destruct (check f1); simpl in H; [discriminate|congruence].
  - intros H. left. pose proof (pure_run (parse_wire mask max) (pure_parse_wire mask max) r exts) as P. rewrite R in P. cbn [state_of] in P. rewrite <- P. now inversion H.
Qed.

Lemma call_pc exts ls st i m : exec X cfg (initial exts) ls = Some st -> nth_error (calls ls) i = Some (CallSend m) ->
  exists items pc c, nth_error (p_users st) i = Some (pc, c) /\ Sd m items pc (W i st).
Proof.
  intros H Hi. apply calls_nth in Hi as (before & after & -> & Hi).
  rewrite exec_app in H. destruct (exec X cfg (initial exts) before) as [st1|] eqn:H1; [|discriminate].
  destruct (Authors_exec X cfg exts before st1 H1) as (Lu & _). rewrite <- Lu in Hi.
  pose proof (written_future X cfg exts before st1 i H1) as Nw. rewrite Hi in Nw. specialize (Nw (le_n _)).
  cbn [exec step] in H. set (st2 := set_users _ st1) in H.
  assert (H2 : exec X cfg (initial exts) (before ++ [LCall (CallSend m)]) = Some st2).
  { rewrite exec_app, H1. reflexivity. }
  destruct (Recv_exec X cfg exts _ st2 H2) as [B2 R2].
  assert (Hu : nth_error (p_users st2) i = Some (UStart (CallSend m), false)).
  { cbn [st2 p_users set_users]. rewrite nth_error_app2 by lia. now rewrite Hi, Nat.sub_diag. }
  destruct (Send_exec X cfg i m st2 after st [] (UStart (CallSend m)) false B2 R2 H Hu) as (pc & c & Q1 & Q2).
  { split; [reflexivity|]. split; [exact Nw|]. intros ->. reflexivity. }
  eauto.
Qed.
Lemma small_calls ls i m : Forall small_label ls -> nth_error (calls ls) i = Some (CallSend m) -> SmallM small_item m.
Proof.
  intros F H. apply calls_nth in H as (before & after & -> & _). apply Forall_app in F as [_ F]. inversion F as [|? ? S0 _]; subst.
  destruct m; try exact Logic.I; exact S0.
Qed.
Lemma wrote_exec exts ls st : Forall small_label ls -> exec X cfg (initial exts) ls = Some st -> wrote (initial exts) st.
Proof.
  revert st. induction ls as [|l ls IH] using rev_ind; intros st F H.
  - cbn [exec] in H. apply some_inj in H as <-. now apply wrote_same.
  - apply Forall_app in F as [F Fl]. rewrite exec_app in H. destruct (exec X cfg (initial exts) ls) as [st1|] eqn:H1; [|discriminate].
    cbn [exec] in H. destruct (step X cfg st1 l) as [st2|] eqn:S1; [|discriminate]. apply some_inj in H as <-.
    apply (wrote_trans _ st1); [now apply IH|].
    apply (step_ow X cfg wrote wrote_same wrote_trans Sm small_item) with (l := l); [| | | | | | |exact S1].
    + intros fin op data C. now left.
    + right. cbn. lia.
    + exact small_prepared.
    + exact wrote_write.
    + intros s1 c f r ex Rd. unfold reading in Rd. apply legacy_read_done in Rd as (g & w & _ & _ & D).
      eapply wrote_trans; [exact (wrote_read s1 _ ex _ (p_in s1 ++ [f]) g _ D eq_refl)|]. now apply wrote_same.
    + intros s1 c e r ex Rd. unfold reading in Rd. apply legacy_read_fail in Rd as [->|(g & res & D)]; [now apply wrote_same|].
      eapply wrote_trans; [exact (wrote_read s1 _ ex _ (p_in s1) g _ D eq_refl)|]. now apply wrote_same.
    + intros i a ->. inversion Fl as [|? ? Sl _]; subst. split; [destruct a as [| | | | |[]]; exact Sl|].
      intros pc c Hu. destruct (Authors_exec X cfg exts ls st1 H1) as (Lu & Nw & _).
      assert (Ni : (i < length (calls ls))%nat) by (rewrite <- Lu; apply nth_error_Some; congruence).
      destruct (nth_error (calls ls) i) as [c0|] eqn:Hc; [|apply nth_error_None in Hc; lia].
      assert (Cs : (exists m, c0 = CallSend m) \/ forall m, c0 <> CallSend m) by (destruct c0; eauto; right; discriminate).
      destruct Cs as [[m ->]|Ns].
      * pose proof (small_calls ls i m F Hc) as Sm0. destruct (call_pc exts ls st1 i m H1 Hc) as (items & pc' & c' & Hu' & Q).
        rewrite Hu in Hu'. injection Hu' as <- <-.
        destruct pc as [c0| |? m0| | |? [rest e|]| | | | | | | | | | |]; try exact Logic.I; cbn [Sd] in Q; try contradiction.
        -- destruct Q as (-> & _). exact Sm0.
        -- destruct Q as (-> & _). exact Sm0.
        -- destruct Q as (done & -> & -> & _). cbn [SmallM] in Sm0. apply Forall_app in Sm0. apply Sm0.
      * destruct (Nw i c0 Hc Ns) as (pc' & b & Hu' & Q). rewrite Hu in Hu'. injection Hu' as <- <-.
        destruct pc as [[]| | | | |? []| | | | | | | | | | |]; try exact Logic.I; contradiction.
Qed.
End Write.

(* ---- reading ---- *)

Definition wrd (e e' : list (pmd zl)) : Prop := forall q, e = [q] -> exists q', e' = [q'] /\ same_dec q' q.
Lemma wrd_refl e : wrd e e.
Proof. intros q ->. exists q. split; [reflexivity|apply same_dec_refl]. Qed.
Lemma wrd_trans e e1 e2 : wrd e e1 -> wrd e1 e2 -> wrd e e2.
Proof.
  intros W1 W2 q H. destruct (W1 q H) as (q1 & H1 & S1). destruct (W2 q1 H1) as (q2 & H2 & S2).
  exists q2. split; [exact H2|]. eapply same_dec_trans; eassumption.
Qed.
Lemma wrd_write cfg st by_ f st' e : write X cfg st by_ f = (st', e) -> wrd (p_exts st) (p_exts st').
Proof.
  unfold write. destruct (serialize _ _ _ _ _) as [exts r] eqn:Sr. intros H q Hq.
  assert (Q : p_exts st' = exts) by (destruct r; apply pair_equal_spec in H as [<- _]; reflexivity).
  rewrite Q. rewrite Hq in Sr. unfold serialize in Sr. destruct (check f).
  2: { apply pair_equal_spec in Sr as [<- _]. exists q. split; [reflexivity|apply same_dec_refl]. }
  cbn [encode_in_order ext_encode pmd_ops] in Sr. pose proof (encode_dec q f) as S1.
  destruct (pmd_encode q f) as [q1 [g|x]]; apply pair_equal_spec in Sr as [<- _]; exists q1; now split.
Qed.
Lemma linked_same b p q p' q' : linked sync b p q -> same_enc p' p -> same_dec q' q -> linked sync b p' q'.
Proof.
  intros [L1 L2 L3 L4 L5 L6] (E1 & E2 & E3 & E4) (D1 & D2 & D3 & D4). constructor; rewrite ?E1, ?E2, ?E3, ?E4, ?D1, ?D2, ?D3, ?D4; assumption.
Qed.
Lemma legal_snoc l : forall b f r, legal b (l ++ f :: r) ->
  exists b', (is_ctrl (f_opcode f) = false -> b' = opcode_eqb (f_opcode f) CONT) /\
    legal (if is_ctrl (f_opcode f) then b' else negb (f_fin f)) r.
Proof.
  induction l as [|g l IH]; intros b f r; cbn [app legal].
  - intros H. exists b. destruct (is_ctrl (f_opcode f)); [split; [discriminate|exact H]|destruct H; split; auto].
  - destruct (is_ctrl (f_opcode g)); [apply IH|]. intros [_ H]. revert H. apply IH.
Qed.
(* the frames read are the first frames written *)
Lemma reads_prefix cfg p q l gs : linked sync false p q -> legal false l -> Forall (fun f => f_rsv1 f = false) l ->
  encodes p l = map Ok gs ->
  forall fs gns ws e, Reads X cfg wrd [q] fs gns ws e -> (exists later, gs = map fst gns ++ later) ->
  exists l' b q', l = fs ++ l' /\ length gns = length fs /\ e = [q'] /\ linked sync b (enc_end p fs) q' /\ legal b l'.
Proof.
  intros Lk Le Rs En fs gns ws e H. induction H as [e Hw|fs gns ws e f g n w e1 e2 H IH Fr De Hw]; intros [later Hg].
  - destruct (Hw q eq_refl) as (q' & -> & Sq). exists l, false, q'. split; [reflexivity|]. split; [reflexivity|]. split; [reflexivity|].
    split; [|exact Le]. cbn [enc_end]. eapply linked_same; [exact Lk|apply same_enc_refl|exact Sq].
  - rewrite map_app, <- app_assoc in Hg. cbn [map app fst] in Hg.
    destruct IH as (l' & b & q' & Hl & Ln & -> & Lk' & Le'); [now exists (g :: later)|].
    cbn [decode_reversed ext_decode pmd_ops] in De. destruct (pmd_decode q' g n) as [q1 r] eqn:Dq.
    apply pair_equal_spec in De as [<- ->].
    assert (E' : encodes (enc_end p fs) l' = map Ok (g :: later)).
    { rewrite Hl, encodes_app, Hg, map_app in En.
      assert (Hlen : length (encodes p fs) = length (map (@Ok frame) (map fst gns))).
      { rewrite !map_length, Ln. clear. revert p. induction fs; intros p; cbn; auto. }
      revert En. generalize (encodes (enc_end p fs) l') (encodes p fs) (map (@Ok frame) (map fst gns)) Hlen. clear.
      intros x a. revert x. induction a as [|y a IH]; intros x [|z b] Hl E; try discriminate; [exact E|].
      cbn [app] in E. injection E as _ E. apply (IH _ b); [cbn in Hl; lia|exact E]. }
    destruct l' as [|f' l']; [discriminate|]. cbn [encodes map] in E'. injection E' as E1 E2.
    assert (R1 : f_rsv1 f' = false). { rewrite Hl in Rs. apply Forall_app in Rs as [_ Rs]. now inversion Rs. }
    cbn [legal] in Le'.
    destruct (frame_decoded sync Zc Rl b (enc_end p fs) q' f' n g f Lk' R1) as [-> Lk2].
    { intros C. rewrite C in Le'. apply Le'. } { exact E1. } { now rewrite Dq. }
    rewrite Dq in Lk2. cbn [fst] in Lk2. destruct (Hw q1 eq_refl) as (q2 & -> & Sq).
    exists l', (if is_ctrl (f_opcode f') then b else negb (f_fin f')), q2. split; [rewrite Hl, <- app_assoc; reflexivity|].
    split; [rewrite !app_length; cbn [length]; lia|]. split; [reflexivity|].
    split; [rewrite enc_end_app; cbn [enc_end]; eapply linked_same; [exact Lk2|apply same_enc_refl|exact Sq]|].
    destruct (is_ctrl (f_opcode f')); [exact Le'|apply Le'].
Qed.
Lemma reads_framed cfg q fs gns ws e : Reads X cfg wrd [q] fs gns ws e -> Forall2 (framed (negb (c_client cfg))) (map fst gns) ws.
Proof. intros H. induction H; [constructor|]. rewrite map_app. apply Forall2_app; [exact IHReads|]. repeat constructor. assumption. Qed.
End Deflate.
