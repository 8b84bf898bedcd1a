(* More invariants of connection histories. *)
From Verif Require Import Base.Prelude Base.PreludeFacts Model.Utils Model.Streams Model.Frames
  Model.Http11 Model.Connection Spec.Rfc6455 Spec.FrameSpec Spec.Messages Spec.History
  Proofs.StreamsFacts Proofs.FramesFacts Proofs.ParserFacts Proofs.AtomicFacts Proofs.ConnectionFacts
  Proofs.Steps Proofs.MessagesFacts Proofs.Invariants Proofs.SendInvariants.

Section Inv.
Context {E : Type} (X : ext_ops E).
Implicit Type c : conn E.
Variable K : call -> Prop.

Notation abs := (abs E).
Notation astep := (astep X K).
Notation asteps := (asteps X K).

(* ---- states ---- *)

Lemma rank_step x y : astep x y -> rank (c_state (a_c x)) <= rank (c_state (a_c y)).
Proof.
  intros S. destruct S; fields; try lia;
  match goal with H : sendable _ _ _ _ _ |- _ => destruct H as (St & _) end; fields; rewrite St; simpl; lia.
Qed.

Definition inv_open (a : abs) : Prop :=
  c_state (a_c a) = OPEN \/ c_state (a_c a) = CLOSING /\ has_close (sent_frames (a_is a)).

Lemma open_step x y : keeps_framing X -> inv_open x -> astep x y -> inv_open y.
Proof.
  intros Kf I S. unfold inv_open in *.
  assert (Mono : forall l r, has_close (sent_frames l) -> has_close (sent_frames (l ++ r))).
  { intros l r H. rewrite sent_frames_app. apply Exists_app. auto. }
  destruct S; fields;
  try (match goal with H : sendable _ _ _ _ _ |- _ =>
         destruct (sendable_keeps X _ _ _ _ Kf H) as (Ho & _); cbn [f_opcode mkframe] in Ho; destruct H as (St & _) end; fields);
  try (destruct I as [I|[I1 I2]]; solve [auto]);
  right; (split; [reflexivity|]); rewrite ?sent_frames_app; apply Exists_app; right; now constructor.
Qed.

(* ---- masking ---- *)

Definition inv_keys (a : abs) : Prop :=
  if is_client (c_side (a_c a)) then
    c_draws (a_c a) = length (masking_keys (a_is a)) /\
    masking_keys (a_is a) = map (fun i => Some (key_of (c_keys (a_c a) i))) (seq 0 (c_draws (a_c a)))
  else forall k, In k (masking_keys (a_is a)) -> k = None.

Lemma masking_keys_app l r : masking_keys (l ++ r) = masking_keys l ++ masking_keys r.
Proof. apply flat_map_app. Qed.
Lemma masking_keys_nil c : masking_keys (eof_items c) = [] /\ masking_keys (closing_items c) = [].
Proof. unfold closing_items, eof_items. destruct (c_eof_sent c), (is_server (c_side c)); auto. Qed.

Lemma keys_step x y : inv_keys x -> astep x y -> inv_keys y.
Proof.
  intros I St. unfold inv_keys in *.
  destruct (is_client (c_side (a_c x))) eqn:Cl.
  - destruct I as [I1 I2].
    assert (Add : forall d, d = S (c_draws (a_c x)) -> 
      d = length (masking_keys (a_is x) ++ [conn_key (a_c x)]) /\
      masking_keys (a_is x) ++ [conn_key (a_c x)] = map (fun i => Some (key_of (c_keys (a_c x) i))) (seq 0 d)).
    { intros d ->. rewrite app_length, seq_S, map_app, <- I2, <- I1. unfold conn_key. rewrite Cl. split; [simpl; lia|reflexivity]. }
    destruct St; fields; rewrite ?Cl; fields; rewrite ?Cl; rewrite ?masking_keys_app;
    rewrite ?(proj1 (masking_keys_nil _)), ?(proj2 (masking_keys_nil _)); cbn [masking_keys flat_map app];
    rewrite ?app_nil_r; auto.
  - assert (Add : forall k, In k (masking_keys (a_is x) ++ [conn_key (a_c x)]) -> k = None).
    { intros k Hk. apply in_app_iff in Hk as [Hk|[<-|[]]]; [auto|]. unfold conn_key. now rewrite Cl. }
    destruct St; fields; rewrite ?Cl; fields; rewrite ?Cl; rewrite ?masking_keys_app;
    rewrite ?(proj1 (masking_keys_nil _)), ?(proj2 (masking_keys_nil _)); cbn [masking_keys flat_map app];
    rewrite ?app_nil_r; auto.
Qed.

(* ---- end of stream, by side ---- *)

Definition close_then_eof (l : list item) : Prop :=
  forall pre f k post, l = pre ++ Sent f k :: post -> is_close f -> post = [Eof] \/ In Eof pre.

Definition inv_server_eof (a : abs) : Prop :=
  c_side (a_c a) = SERVER ->
  (has_close (sent_frames (a_is a)) -> c_eof_sent (a_c a) = true) /\ close_then_eof (a_is a).

Lemma count_eof_in l : In Eof l <-> count_eof l <> 0.
Proof.
  induction l as [|[|f k] l IH]; simpl; split; intros H; try tauto; try lia; auto.
  - destruct H as [H|H]; [discriminate|]. now apply IH.
Qed.

Lemma server_eof_step x y : keeps_framing X -> inv_close_sent x -> inv_eof x -> inv_server_eof x ->
  astep x y -> inv_server_eof y.
Proof.
  intros Kf (Cs & _) Ie I S. unfold inv_server_eof in *.
  assert (No : c_state (a_c x) = OPEN -> ~ has_close (sent_frames (a_is x))) by (intros H H9; apply Cs in H9; congruence).
  assert (Hin : c_eof_sent (a_c x) = true -> In Eof (a_is x)).
  { intros H. apply count_eof_in. unfold inv_eof in Ie. rewrite H in Ie. lia. }
  assert (AppS : forall f k, c_state (a_c x) = OPEN -> ~ is_close f -> close_then_eof (a_is x ++ [Sent f k])).
  { intros f k St Nf pre g k' post He Hg. destruct (snoc_split _ _ _ _ _ He) as [(-> & <- & Hi)|(post' & -> & Hl)].
    - injection Hi as -> ->. contradiction.
    - exfalso. apply (No St). rewrite Hl, sent_frames_app. apply Exists_app. right. now constructor. }
  assert (AppE : forall f k, c_state (a_c x) = OPEN -> close_then_eof (a_is x ++ [Sent f k] ++ eof_items (a_c x))).
  { intros f k St pre g k' post He Hg. unfold eof_items in He. destruct (c_eof_sent (a_c x)) eqn:Es.
    - rewrite app_nil_r in He. destruct (snoc_split _ _ _ _ _ He) as [(-> & <- & _)|(post' & -> & Hl)]; [auto|].
      exfalso. apply (No St). rewrite Hl, sent_frames_app. apply Exists_app. right. now constructor.
    - rewrite app_assoc in He. destruct (snoc_split _ _ _ _ _ He) as [(_ & _ & Hi)|(post' & -> & Hl)]; [discriminate|].
      destruct (snoc_split _ _ _ _ _ Hl) as [(-> & <- & _)|(post'' & -> & Hl')]; [auto|].
      exfalso. apply (No St). rewrite Hl', sent_frames_app. apply Exists_app. right. now constructor. }
  assert (AppQ : c_eof_sent (a_c x) = false -> c_side (a_c x) = SERVER -> close_then_eof (a_is x ++ [Eof])).
  { intros Es Sv pre g k' post He Hg. destruct (snoc_split _ _ _ _ _ He) as [(_ & _ & Hi)|(post' & -> & Hl)]; [discriminate|].
    destruct (I Sv) as [I1 _]. rewrite I1 in Es; [discriminate|]. rewrite Hl, sent_frames_app. apply Exists_app. right. now constructor. }
  intros Sv. assert (Svx : c_side (a_c x) = SERVER).
  { pose proof (steps_const X K x y (as_step X K x x y (as_refl X K x) S)) as (Hs & _). congruence. }
  specialize (I Svx). destruct I as [I1 I2].
  destruct S; fields;
  try (match goal with H : sendable _ _ _ _ _ |- _ =>
         destruct (sendable_keeps X _ _ _ _ Kf H) as (Ho & _); cbn [f_opcode mkframe] in Ho; destruct H as (St & _) end; fields);
  unfold closing_items; rewrite ?Svx; cbn [is_server];
  try (split; [solve [auto]|solve [auto]]; fail).
  - assert (Nf : ~ is_close f').
    { unfold is_close. rewrite Ho. match goal with H : data_call _ = _ |- _ => apply data_call_op in H end.
      intros ->. discriminate. }
    split; [|auto]. rewrite sent_frames_snoc, has_close_snoc. tauto.
  - assert (Nf : ~ is_close f').
    { unfold is_close. rewrite Ho. match goal with H : ctrl_call _ = _ |- _ => apply ctrl_call_op in H end. intuition congruence. }
    split; [|auto]. rewrite sent_frames_snoc, has_close_snoc. tauto.
  - assert (Nf : ~ is_close f') by (unfold is_close; rewrite Ho; discriminate).
    split; [|auto]. rewrite sent_frames_snoc, has_close_snoc. tauto.
  - split; [auto|]. specialize (AppE f' (conn_key c) St). unfold eof_items in AppE.
    match goal with H : c_eof_sent c = true |- _ => rewrite H in AppE end. rewrite app_nil_r in AppE. exact AppE.
  - split; [auto|]. unfold eof_items. destruct (c_eof_sent c); [rewrite app_nil_r|]; auto.
Qed.

Definition inv_client_eof (a : abs) : Prop :=
  c_side (a_c a) = CLIENT -> c_eof_sent (a_c a) = true ->
  K CReceiveEof \/ (exists e, a_ph a = Dead (Some e)).

Lemma client_eof_step x y : inv_client_eof x -> astep x y -> inv_client_eof y.
Proof.
  intros I S. unfold inv_client_eof in *. intros Cy Ey.
  assert (Cx : c_side (a_c x) = CLIENT).
  { pose proof (steps_const X K x y (as_step X K x x y (as_refl X K x) S)) as (Hs & _). congruence. }
  specialize (I Cx). destruct S; fields; eauto; rewrite ?Cx in *; cbn [is_server] in *; eauto;
  (destruct (I Ey) as [?|(? & ?)]; [auto|discriminate]).
Qed.

(* ---- pongs ---- *)

Lemma pings_snoc l f : ~ has_close l ->
  pings_before_close (l ++ [f]) = pings_before_close l ++ match f_opcode f with PING => [f_data f] | _ => [] end.
Proof.
  induction l as [|g l IH]; intros H; simpl.
  - destruct (f_opcode f); reflexivity.
  - assert (Hl : ~ has_close l) by (intros H9; apply H; now right).
    assert (Hg : f_opcode g <> CLOSE) by (intros H9; apply H; now left).
    rewrite (IH Hl). destruct (f_opcode g); try reflexivity. contradiction.
Qed.
Lemma pings_after_close l r : has_close l -> pings_before_close (l ++ r) = pings_before_close l.
Proof.
  induction l as [|g l IH]; intros H; [inversion H|]. simpl. destruct (f_opcode g) eqn:O; try reflexivity;
  (rewrite IH; [reflexivity|]; inversion H as [? ? H1|? ? H1]; subst; [unfold is_close in H1; congruence|exact H1]).
Qed.
Lemma pings_close_snoc l f : f_opcode f <> PING -> pings_before_close (l ++ [f]) = pings_before_close l.
Proof.
  intros Hf. induction l as [|g l IH]; simpl.
  - destruct (f_opcode f); try reflexivity. contradiction.
  - rewrite IH. reflexivity.
Qed.
Lemma pongs_app l r : pongs (l ++ r) = pongs l ++ pongs r.
Proof. apply flat_map_app. Qed.

Definition inv_pongs (a : abs) : Prop :=
  pongs (sent_frames (a_is a)) = pings_before_close (frames_of (a_ev a)).

Definition no_pong_calls : Prop := forall data, ~ K (CSendPong data).

Lemma not_pong f : f_opcode f <> PONG -> pongs [f] = [].
Proof. unfold pongs. simpl. destruct (f_opcode f); try reflexivity. contradiction. Qed.

Lemma sent_nil c : sent_frames (eof_items c) = [] /\ sent_frames (closing_items c) = [].
Proof. unfold closing_items, eof_items. destruct (c_eof_sent c), (is_server (c_side c)); auto. Qed.

Lemma pongs_step x y : keeps_framing X -> no_pong_calls -> inv_close_rcvd x -> inv_pongs x ->
  astep x y -> inv_pongs y.
Proof.
  intros Kf Np (R1 & R2 & _) I S. unfold inv_pongs in *.
  destruct S; fields;
  try (match goal with H : sendable _ _ _ _ _ |- _ =>
         destruct (sendable_keeps X _ _ _ _ Kf H) as (Ho & _ & Hf); cbn [f_opcode mkframe] in Ho, Hf end);
  rewrite ?sent_frames_app, ?frames_of_snoc, ?(proj1 (sent_nil _)), ?(proj2 (sent_nil _)), ?pongs_app; cbn [sent_frames flat_map app pongs];
  rewrite ?app_nil_r, ?Ho; cbn [app]; rewrite ?app_nil_r; try exact I.
  - match goal with H : data_call _ = _ |- _ => apply data_call_op in H end. destruct o; try discriminate; cbn [app]; rewrite app_nil_r; exact I.
  - destruct k; try discriminate; match goal with H : ctrl_call _ = _ |- _ => cbn in H; injection H as <- <- end.
    + rewrite app_nil_r. exact I.
    + exfalso. eapply Np. eassumption.
  - (* data *)
    match goal with H : in_order _ _ |- _ => unfold in_order in H end.
    rewrite pings_close_snoc; [exact I|]. destruct (f_opcode f); try contradiction; discriminate.
  - match goal with H : _ \/ _ |- _ => destruct H as [H9|[H9 H10]] end.
    + rewrite pings_close_snoc by congruence. exact I.
    + rewrite pings_after_close by auto. exact I.
  - (* ping *)
    rewrite pings_snoc.
    + match goal with H : f_opcode f = PING |- _ => rewrite H end. rewrite Hf by reflexivity. cbn [f_data mkframe]. now rewrite I.
    + intros H9. apply R1 in H9. congruence.
  - rewrite pings_close_snoc by congruence. exact I.
  - rewrite pings_close_snoc by congruence. exact I.
Qed.

(* ---- close codes ---- *)

(* the last close frame delivered *)
Definition inv_close_code (a : abs) : Prop :=
  (forall pre f post, frames_of (a_ev a) = pre ++ f :: post -> is_close f -> ~ has_close post ->
     a_ph a = Alive ->
     exists code reason, parse_close (f_data f) = Ok (code, reason) /\
       c_close_code (a_c a) = Some code /\ c_close_reason (a_c a) = Some reason).

Lemma close_code_step x y : inv_close_code x -> astep x y -> inv_close_code y.
Proof.
  intros I S. unfold inv_close_code in *.
  destruct S; fields; try (intros ? ? ? ? ? ? [=]; fail);
  try exact I; try (intros; eapply I; eassumption || reflexivity);
  rewrite ?frames_of_snoc; intros pre g post He Hg Hn _;
  destruct (snoc_split _ _ _ _ _ He) as [(-> & Hl & Hi)|(post' & -> & Hl)].
  - subst g. unfold is_close in Hg. match goal with H : in_order _ _ |- _ => unfold in_order in H; rewrite Hg in H; contradiction end.
  - eapply I; eauto. intros H9. apply Hn. apply Exists_app. auto.
  - subst g. unfold is_close in Hg. exfalso. intuition congruence.
  - eapply I; eauto. intros H9. apply Hn. apply Exists_app. auto.
  - subst g. unfold is_close in Hg. congruence.
  - eapply I; eauto. intros H9. apply Hn. apply Exists_app. auto.
  - subst g. eauto.
  - exfalso. apply Hn. apply has_close_snoc. auto.
  - subst g. eauto.
  - exfalso. apply Hn. apply has_close_snoc. auto.
Qed.

(* ---- the frames written, without extensions ---- *)

Definition good_close (f : frame) : Prop :=
  is_close f -> exists code reason, parse_close (f_data f) = Ok (code, reason).

Definition inv_sent_ok (a : abs) : Prop :=
  forall f k, In (Sent f k) (a_is a) ->
    check f = Ok tt /\ (lenN (f_data f) < 2 ^ 64)%N /\ good_close f.

Lemma sent_ok_step x y : c_exts (a_c x) = [] -> inv_sent_ok x -> astep x y -> inv_sent_ok y.
Proof.
  intros Nx I S. unfold inv_sent_ok in *.
  assert (Sd : forall c f exts f', c_exts c = [] -> sendable X c f exts f' -> f' = f /\ check f = Ok tt /\ (lenN (f_data f) < 2 ^ 64)%N).
  { intros c f exts f' Hx (_ & C & En & L). rewrite Hx in En. cbn [encode_in_order] in En. injection En as _ <-. auto. }
  assert (Add : forall g k, (check g = Ok tt /\ (lenN (f_data g) < 2 ^ 64)%N /\ good_close g) ->
            forall l, only_eof l -> forall f k', In (Sent f k') (a_is x ++ [Sent g k] ++ l) ->
            check f = Ok tt /\ (lenN (f_data f) < 2 ^ 64)%N /\ good_close f).
  { intros g k Hg l Hl f k' Hin. apply in_app_iff in Hin as [Hin|[Hin|Hin]]; [eauto| |].
    - injection Hin as <- _. exact Hg.
    - apply Hl in Hin. discriminate. }
  assert (Eofs : forall c, only_eof (eof_items c) /\ only_eof (closing_items c) /\ only_eof []).
  { intros c. unfold only_eof, closing_items, eof_items. destruct (c_eof_sent c), (is_server (c_side c)); simpl; intuition. }
  assert (Pc : forall code reason data, close_payload code reason = Ok data ->
            exists code' reason', parse_close data = Ok (code', reason')).
  { intros [code|] reason data Hp; cbn [close_payload] in Hp.
    - apply parse_serialize_close in Hp. eauto.
    - destruct reason; [|discriminate]. injection Hp as <-. vm_compute. eauto. }
  destruct S; try exact I; fields;
  try (match goal with H : sendable _ ?cc _ _ _ |- _ =>
         apply Sd in H as (-> & Hc & Hl) end; [|fields; solve [assumption | 
           match goal with H : received _ _ _ _ |- _ => apply received_exts in H; rewrite Nx in H; destruct exts; [reflexivity|discriminate] end]]);
  try (apply Add; [|apply (Eofs c)]; split; [assumption|]; split; [assumption|]; intros Hf;
       unfold is_close in Hf; cbn [f_opcode mkframe f_data] in *; solve [discriminate | eauto]);
  try (intros g k9 Hin; apply in_app_iff in Hin as [Hin|Hin]; [eauto|]; 
       destruct (Eofs c) as (Eo & _); try apply Eo in Hin; simpl in Hin; intuition discriminate).
  - apply (Add _ _) with (l := []); [|apply (Eofs c)]. split; [assumption|]. split; [assumption|].
    intros Hf. unfold is_close in Hf. cbn in Hf. match goal with H : data_call _ = _ |- _ => apply data_call_op in H end. subst o. discriminate.
  - apply (Add _ _) with (l := []); [|apply (Eofs c)]. split; [assumption|]. split; [assumption|].
    intros Hf. unfold is_close in Hf. cbn in Hf. match goal with H : ctrl_call _ = _ |- _ => apply ctrl_call_op in H end. intuition congruence.
  - apply Add; [|apply (Eofs c)]. split; [assumption|]. split; [assumption|].
    intros Hf. cbn. match goal with H : serialize_close _ _ = _ |- _ => apply parse_serialize_close in H end. eauto.
Qed.

(* ---- a close frame is delivered between messages ---- *)

Definition inv_close_between (a : abs) : Prop :=
  inv_close_rcvd a /\ (has_close (frames_of (a_ev a)) -> c_cur_size (a_c a) = None).

Lemma close_between_step x y : inv_close_between x -> astep x y -> inv_close_between y.
Proof.
  intros [I B] S. split; [eapply close_rcvd_step; eauto|]. destruct I as (I1 & _ & _).
  destruct S; fields; try exact B; rewrite ?frames_of_snoc, ?has_close_snoc; auto.
  - intros [H9|H9]; [apply I1 in H9; congruence|]. unfold is_close in H9.
    match goal with H : in_order _ _ |- _ => unfold in_order in H; rewrite H9 in H; contradiction end.
  - intros [H9|H9]; [auto|]. unfold is_close in H9. destruct H0 as [?|[? ?]]; congruence.
  - intros [H9|H9]; [auto|]. unfold is_close in H9. congruence.
Qed.

End Inv.
