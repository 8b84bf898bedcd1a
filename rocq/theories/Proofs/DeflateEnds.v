(* permessage-deflate at both ends of a sans-I/O connection (for C92). *)
From Verif Require Import Base.Prelude Base.PreludeFacts Model.Utils Model.Streams Model.Frames Model.PermessageDeflate
  Model.Http11 Model.Connection Spec.Rfc6455 Spec.FrameSpec Spec.Messages Spec.History Spec.Endpoints Spec.Deflate
  Proofs.MessagesFacts Proofs.DeflateFacts Proofs.DeflateRun Proofs.LegacyDeflate Proofs.SansIoEnds Proofs.SansIoSends Proofs.EndpointsFacts.
Local Open Scope N_scope.

(* a message is in progress after these frames *)
Definition flag1 (b : bool) (f : frame) : bool := if is_ctrl (f_opcode f) then b else negb (f_fin f).
Definition flag (l : list frame) : bool := fold_left flag1 l false.
Lemma flag_snoc l f : flag (l ++ [f]) = flag1 (flag l) f.
Proof. unfold flag. now rewrite fold_left_app. Qed.
Lemma flag_sequence l : forall done cur, message_sequence l done cur -> flag l = in_progress cur.
Proof.
  induction l as [|f l IH] using rev_ind; intros done cur Ms.
  - destruct (message_sequence_unique _ _ _ _ _ Ms message_sequence_nil) as [_ ->]. reflexivity.
  - assert (Wf : well_formed_messages (l ++ [f])) by (exists done, cur; exact Ms).
    destruct (well_formed_prefix l [f] Wf) as (d & c & M). rewrite flag_snoc, (IH _ _ M). unfold flag1.
    destruct (is_data_b f) eqn:Db.
    + pose proof (message_data _ _ _ f M (next_ok_of l d c f M Db Wf)) as Md.
      assert (is_ctrl (f_opcode f) = false) as -> by (unfold is_data_b in Db; destruct (f_opcode f); try discriminate Db; reflexivity).
      destruct (f_fin f); destruct (message_sequence_unique _ _ _ _ _ Ms Md) as [_ ->]; [reflexivity|now destruct c].
    + assert (is_ctrl (f_opcode f) = true) as -> by (unfold is_data_b in Db; destruct (f_opcode f); try discriminate Db; reflexivity).
      destruct (message_sequence_unique _ _ _ _ _ Ms (message_ctrl _ _ _ f Db M)) as [_ ->]. reflexivity.
Qed.
Lemma next_flag l done cur f : message_sequence l done cur -> next_ok cur f -> flag l = opcode_eqb (f_opcode f) CONT.
Proof.
  intros Ms N. rewrite (flag_sequence _ _ _ Ms). unfold next_ok in N. destruct (f_opcode f); try contradiction; try (subst cur; reflexivity).
  destruct cur; [contradiction|reflexivity].
Qed.
Lemma check_rsv1 f : check f = Ok tt -> f_rsv1 f = false.
Proof. unfold check. destruct (f_rsv1 f); [discriminate|reflexivity]. Qed.

Lemma encodes_length {zl : zlib} l : forall p : pmd zl, length (encodes p l) = length l.
Proof. induction l as [|f l IH]; intros p; [reflexivity|]. cbn [encodes length]. now rewrite IH. Qed.

Section Ends.
Context {zl : zlib} (sync : z_comp zl -> z_decomp zl -> Prop) (Zc : correct_zlib zl sync) (Ex : expands_little zl).
Implicit Types p q : pmd zl.
Notation X := (pmd_ops zl).
Notation names := (map fst).

Lemma pmd_plain (exts : list (pmd zl)) : plain_ctrl X exts.
Proof.
  intros f Hi. induction exts as [|p exts IH]; [reflexivity|]. cbn [encode_in_order ext_encode pmd_ops]. unfold pmd_encode. rewrite Hi, IH. reflexivity.
Qed.
Lemma encode_one p f : encode_in_order X [p] f = ([fst (pmd_encode p f)], snd (pmd_encode p f)).
Proof. cbn [encode_in_order ext_encode pmd_ops]. destruct (pmd_encode p f) as [p' [g|e]]; reflexivity. Qed.
Lemma decode_one p f n : decode_reversed X [p] f n = ([fst (pmd_decode p f n)], snd (pmd_decode p f n)).
Proof. cbn [decode_reversed ext_decode pmd_ops]. destruct (pmd_decode p f n) as [p' r]. reflexivity. Qed.

Section Link.
Context (p0 q0 : pmd zl) (L0 : linked sync false p0 q0).
Record Enc (ps : list (frame * frame)) (exts : list (pmd zl)) : Prop := {
  en_exts : exists p, exts = [p] /\ same_enc p (enc_end p0 (names ps));
  en_encodes : encodes p0 (names ps) = map Ok (map snd ps);
  en_check : Forall (fun f => check f = Ok tt) (names ps);
  en_messages : well_formed_messages (names ps);
  en_linked : exists q, linked sync (flag (names ps)) (enc_end p0 (names ps)) q }.
Definition Lk (l : list (frame * frame)) (exts : list (pmd zl)) : Prop :=
  exists q, exts = [q] /\ linked sync (flag (names l)) (enc_end p0 (names l)) q.

Lemma Enc_frame ps exts f : Enc ps exts -> check f = Ok tt ->
  well_formed_messages (names ps ++ [f]) ->
  (is_ctrl (f_opcode f) = false -> flag (names ps) = opcode_eqb (f_opcode f) CONT) ->
  exists p g, exts = [p] /\ snd (pmd_encode p f) = Ok g /\ Enc (ps ++ [(f, g)]) [fst (pmd_encode p f)].
Proof.
  intros [(p & -> & Sp) E2 E3 _ (q & Lq)] Ck Wf Hf. destruct (encode_same p _ f Sp) as (Er & Se).
  destruct (frame_round_trip sync Zc _ _ q f None Lq (check_rsv1 f Ck) Logic.I Hf) as (g & G1 & _ & G3).
  exists p, g. split; [reflexivity|]. rewrite Er. split; [exact G1|]. split; rewrite ?map_app; cbn [map fst snd].
  - exists (fst (pmd_encode p f)). split; [reflexivity|]. rewrite enc_end_app. exact Se.
  - rewrite encodes_app, E2. cbn [encodes]. rewrite G1. reflexivity.
  - apply Forall_app. split; [exact E3|]. constructor; [exact Ck|constructor].
  - exact Wf.
  - eexists. rewrite flag_snoc, enc_end_app. exact G3.
Qed.

Lemma pmd_linkable : linkable X (2 ^ 59) [p0] [q0].
Proof.
  exists Enc, Lk. split; [split; [|split; [|split]]|split; [|split]].
  - split; [exists p0; split; [reflexivity|apply same_enc_refl]|reflexivity|constructor|exists [], []; apply message_sequence_nil|exists q0; exact L0].
  - intros ps exts f done cur En Ck Db Ld Ms No.
    assert (Wf : well_formed_messages (names ps ++ [f])).
    { pose proof (message_data _ _ _ f Ms No) as Md. destruct (f_fin f); eexists _, _; exact Md. }
    destruct (Enc_frame ps exts f En Ck Wf (fun _ => next_flag _ _ _ _ Ms No)) as (p & g & -> & G1 & G2).
    assert (Kp : f_opcode g = f_opcode f /\ f_fin g = f_fin f).
    { destruct (proj1 pmd_keeps_framing p f (fst (pmd_encode p f)) g) as (K1 & K2 & _); [|split; assumption].
      cbn [ext_encode pmd_ops]. rewrite (surjective_pairing (pmd_encode p f)), G1. reflexivity. }
    exists [fst (pmd_encode p f)], g. rewrite encode_one, G1. split; [reflexivity|]. split; [|split; [apply Kp|split; [apply Kp|exact G2]]].
    destruct (encode_size Ex p f g G1) as [(_ & ->)|L]; lia.
  - intros ps exts En f Hi Ck.
    assert (Wf : well_formed_messages (names ps ++ [f])).
    { destruct (en_messages _ _ En) as (done & cur & Ms). exists done, cur. apply message_ctrl; [|exact Ms].
      unfold is_data_b. destruct (f_opcode f); try discriminate Hi; reflexivity. }
    destruct (Enc_frame ps exts f En Ck Wf) as (p & g & -> & G1 & G2); [congruence|].
    pose proof (pmd_plain [p] f Hi) as Pp. rewrite encode_one in Pp. apply pair_equal_spec in Pp as [P1 P2]. rewrite P1 in G2.
    rewrite P2 in G1. apply ok_inj in G1. rewrite G1 at 2. exact G2.
  - intros ps exts g n exts' r [(p & -> & Sp) E2 E3 E4 E5] D. rewrite decode_one in D. apply pair_equal_spec in D as [<- _].
    split; auto. eexists. split; [reflexivity|]. eapply same_enc_trans; [apply decode_enc|exact Sp].
  - exists q0. split; [reflexivity|exact L0].
  - intros ps exts l f g l' exts1 n [_ E2 E3 E4 _] Hp (q & -> & Lq) Fi.
    assert (Hn : names ps = names l ++ f :: names l') by (rewrite Hp, map_app; reflexivity).
    assert (Ck : check f = Ok tt).
    { rewrite Hn in E3. apply Forall_app in E3 as [_ E3]. now inversion E3. }
    assert (Hf : is_ctrl (f_opcode f) = false -> flag (names l) = opcode_eqb (f_opcode f) CONT).
    { intros Hi. rewrite Hn in E4. change (f :: names l') with ([f] ++ names l') in E4. rewrite app_assoc in E4. apply well_formed_prefix in E4.
      destruct (well_formed_prefix (names l) [f] E4) as (done & cur & Ms). apply (next_flag _ done cur); [exact Ms|].
      apply (next_ok_of (names l) done); [exact Ms| |exact E4]. unfold is_data_b. destruct (f_opcode f); try discriminate Hi; reflexivity. }
    destruct (frame_round_trip sync Zc _ _ q f n Lq (check_rsv1 f Ck)) with (2 := Hf) as (g' & G1 & G2 & G3).
    { unfold allows, fits, lenZ in *. destruct n; [lia|exact Logic.I]. }
    assert (g' = g) as ->.
    { rewrite Hn, Hp, encodes_app, !map_app in E2. cbn [encodes map snd] in E2.
      apply app_same_length in E2 as [_ E2]; [|rewrite !map_length, encodes_length, map_length; reflexivity].
      rewrite G1 in E2. injection E2 as E2 _. exact E2. }
    exists [fst (pmd_decode q g n)]. rewrite decode_one, G2. split; [reflexivity|]. eexists. split; [reflexivity|].
    rewrite map_app. cbn [map fst]. rewrite flag_snoc, enc_end_app. exact G3.
  - intros l exts f exts' r (q & -> & Lq) D. rewrite encode_one in D. apply pair_equal_spec in D as [<- _].
    eexists. split; [reflexivity|]. eapply linked_same; [exact Lq|apply same_enc_refl|apply encode_dec].
Qed.
End Link.
End Ends.
