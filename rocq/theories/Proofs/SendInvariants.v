(* Invariants about what is written, by induction on the steps of Proofs/Steps.v. *)
From Verif Require Import Base.Prelude Base.PreludeFacts Model.Utils Model.Streams Model.Frames
  Model.Http11 Model.Connection Spec.Rfc6455 Spec.FrameSpec Spec.Messages Spec.History
  Proofs.StreamsFacts Proofs.FramesFacts Proofs.ParserFacts Proofs.AtomicFacts Proofs.ConnectionFacts
  Proofs.Steps Proofs.MessagesFacts Proofs.Invariants.

Section Inv.
Context {E : Type} (X : ext_ops E).
Implicit Type c : conn E.
Variable K : call -> Prop.

Notation abs := (abs E).
Notation astep := (astep X K).
Notation asteps := (asteps X K).

(* ---- messages ---- *)

(* encoding frames of less than 2^64 bytes succeeds *)
Definition total_encoder : Prop := forall e f, (lenN (f_data f) < 2 ^ 64)%N ->
  exists e' f', ext_encode X e f = (e', Ok f') /\ (lenN (f_data f') < 2 ^ 64)%N.

Lemma total_encode exts : forall f, exts = [] \/ total_encoder -> (lenN (f_data f) < 2 ^ 64)%N ->
  exists exts' f', encode_in_order X exts f = (exts', Ok f') /\ (lenN (f_data f') < 2 ^ 64)%N.
Proof.
  induction exts as [|e exts IH]; intros f T L; cbn [encode_in_order]; [eauto|].
  destruct T as [T|T]; [discriminate|]. destruct (T e f L) as (e' & f' & -> & L').
  destruct (IH f' (or_intror T) L') as (exts' & f'' & -> & L''). eauto.
Qed.

Lemma check_data fin o data : is_ctrl o = false -> check (mkframe fin o data) = Ok tt.
Proof. unfold check, mkframe. cbn. intros ->. reflexivity. Qed.

Lemma never_unsendable c fin o data exts e : c_exts c = [] \/ total_encoder -> is_ctrl o = false ->
  (lenN data < 2 ^ 64)%N -> unsendable X c (mkframe fin o data) exts e -> c_state c <> OPEN.
Proof.
  intros T O L. destruct (total_encode (c_exts c) (mkframe fin o data) T L) as (x & f' & En & L').
  intros [(H & _)|[(_ & _ & C)|[(_ & _ & D)|(_ & _ & _ & f2 & D & L2)]]].
  - exact H.
  - rewrite (check_data fin o data O) in C. discriminate.
  - rewrite En in D. discriminate.
  - rewrite En in D. injection D as _ <-. lia.
Qed.

Definition inv_sent_messages (a : abs) : Prop :=
  well_formed_messages (sent_frames (a_is a)) /\
  (c_state (a_c a) = OPEN -> exists done cur, message_sequence (sent_frames (a_is a)) done cur /\
      c_expect_cont (a_c a) = match cur with [] => false | _ => true end).

Lemma inv_sent_other a a' l :
  sent_frames (a_is a') = sent_frames (a_is a) ++ l -> Forall (fun f => is_data_b f = false) l ->
  (c_state (a_c a') = OPEN -> c_state (a_c a) = OPEN /\ c_expect_cont (a_c a') = c_expect_cont (a_c a)) ->
  inv_sent_messages a -> inv_sent_messages a'.
Proof.
  intros Hs Hl Ho ((done & cur & W) & I). rewrite <- app_nil_r in Hs.
  assert (A : forall done cur, message_sequence (sent_frames (a_is a)) done cur ->
                               message_sequence (sent_frames (a_is a')) done cur).
  { clear -Hs Hl. rewrite Hs, app_nil_r. clear Hs. generalize (sent_frames (a_is a)). induction l as [|f l IH]; intros s0 done cur M.
    - now rewrite app_nil_r.
    - replace (s0 ++ f :: l) with ((s0 ++ [f]) ++ l) by now rewrite <- app_assoc.
      apply IH; [now inversion Hl|]. apply message_ctrl; [now inversion Hl|exact M]. }
  split; [exists done, cur; auto|]. intros H. destruct (Ho H) as [H1 ->]. destruct (I H1) as (d & k & M & Ex). eauto.
Qed.

Definition small_data : Prop := forall k o data fin, K k -> data_call k = Some (o, data, fin) -> (lenN data < 2 ^ 64)%N.

Lemma data_call_op k o data fin : data_call k = Some (o, data, fin) -> is_ctrl o = false.
Proof. destruct k; intros H; try discriminate; cbn in H; injection H as <- <- <-; reflexivity. Qed.
Lemma ctrl_call_op k o data : ctrl_call k = Some (o, data) -> o = PING \/ o = PONG.
Proof. destruct k; intros H; try discriminate; cbn in H; injection H as <- <-; auto. Qed.

Lemma sent_messages_step x y : keeps_framing X -> small_data -> (c_exts (a_c x) = [] \/ total_encoder) ->
  inv_sent_messages x -> astep x y -> inv_sent_messages y.
Proof.
  intros Kf Sd T I S.
  assert (Ctl : forall (a' : abs) f k, f_opcode f = PING \/ f_opcode f = PONG \/ f_opcode f = CLOSE ->
     sent_frames (a_is a' ++ [Sent f k]) = sent_frames (a_is a') ++ [f] /\ Forall (fun f => is_data_b f = false) [f]).
  { intros a' f k Ho. split; [apply sent_frames_snoc|]. constructor; [|constructor]. unfold is_data_b.
    destruct Ho as [->|[->| ->]]; reflexivity. }
  destruct S;
  try (refine (inv_sent_other _ _ [] _ _ _ I);
       [fields; rewrite ?sent_frames_eof; symmetry; apply app_nil_r|constructor|fields; solve [auto | intros ?; auto | congruence]]; fail);
  (* a control frame is written *)
  try (match goal with H : sendable _ _ _ _ _ |- _ =>
         destruct (sendable_keeps X _ _ _ _ Kf H) as (Ho & _); cbn [f_opcode mkframe] in Ho end;
       match goal with |- inv_sent_messages (Abs _ (_ ++ Sent ?f ?k :: _) _ _) => idtac | |- inv_sent_messages (Abs _ (_ ++ [Sent ?f ?k] ++ _) _ _) => idtac end;
       refine (inv_sent_other _ _ [f'] _ _ _ I);
       [ fields; unfold closing_items, eof_items;
         repeat match goal with |- context [if ?b then _ else _] => destruct b end; rewrite sent_frames_app; reflexivity
       | constructor; [|constructor]; unfold is_data_b; 
         try (match goal with H : ctrl_call _ = _ |- _ => apply ctrl_call_op in H as [->| ->] end); rewrite Ho; reflexivity
       | fields; solve [auto | discriminate] ]; fail).
  - (* data *)
    destruct I as (_ & I). fields.
    match goal with H : sendable _ _ _ _ _ |- _ => destruct (sendable_keeps X _ _ _ _ Kf H) as (Ho & Hf & _); destruct H as (St & _) end.
    cbn [f_opcode f_fin mkframe] in Ho, Hf. destruct (I St) as (done & cur & M & Ex).
    assert (N : next_ok cur f').
    { unfold next_ok. rewrite Ho. unfold may_send in *. rewrite Ex in *.
      match goal with H : data_call _ = _ |- _ => apply data_call_op in H end.
      destruct o; try discriminate; destruct cur; try discriminate; try reflexivity. }
    pose proof (message_data _ _ _ f' M N) as M'. rewrite Hf in M'.
    unfold inv_sent_messages. fields. rewrite sent_frames_snoc. unfold well_formed_messages. destruct fin.
    + split; [eauto|]. intros _. eexists _, []. split; [exact M'|reflexivity].
    + split; [eauto|]. intros _. eexists _, (cur ++ [f']). split; [exact M'|]. destruct cur; reflexivity.
  - (* a data frame isn't written: the connection isn't open *)
    refine (inv_sent_other _ _ [] _ _ _ I); [symmetry; apply app_nil_r|constructor|].
    fields. intros St. exfalso. eapply (never_unsendable c fin o data exts e T); try eassumption.
    + match goal with H : data_call _ = _ |- _ => apply data_call_op in H end. assumption.
    + eapply Sd; eassumption.
  - refine (inv_sent_other _ _ [] _ _ _ I); [|constructor|fields; auto].
    fields. unfold eof_items. destruct (c_eof_sent c); rewrite sent_frames_app; reflexivity.
Qed.

(* ---- close frames ---- *)

Definition is_eof (i : item) : Prop := i = Eof.
Definition is_sent_close (i : item) : Prop := match i with Sent f _ => is_close f | Eof => False end.

Definition closes_last (l : list item) : Prop :=
  forall pre f k post, l = pre ++ Sent f k :: post -> is_close f ->
     Forall is_eof post /\ ~ has_close (sent_frames pre).

Definition inv_close_sent (a : abs) : Prop :=
  (has_close (sent_frames (a_is a)) -> c_state (a_c a) = CLOSING) /\ closes_last (a_is a).

Lemma close_sent_step x y : keeps_framing X ->
  inv_close_sent x -> astep x y -> inv_close_sent y.
Proof.
  intros Kf (I1 & I2) S. unfold inv_close_sent.
  (* when the connection is open, no close frame was written *)
  assert (No : c_state (a_c x) = OPEN -> ~ has_close (sent_frames (a_is x))) by (intros H H9; apply I1 in H9; congruence).
  assert (AppS : forall f k, c_state (a_c x) = OPEN -> closes_last (a_is x ++ [Sent f k])).
  { intros f k St pre g k' post He Hg. destruct (snoc_split _ _ _ _ _ He) as [(-> & <- & _)|(post' & -> & Hl)].
    - split; [constructor|auto].
    - exfalso. apply (No St). rewrite Hl, sent_frames_app. apply Exists_app. right. now constructor. }
  assert (AppE : forall l, closes_last l -> closes_last (l ++ [Eof])).
  { intros l H pre g k' post He Hg. destruct (snoc_split _ _ _ _ _ He) as [(_ & _ & ?)|(post' & -> & Hl)]; [discriminate|].
    destruct (H pre g k' post' Hl Hg) as [F1 F2]. split; [|exact F2]. apply Forall_app. split; [exact F1|]. constructor; [reflexivity|constructor]. }
  destruct S; fields;
  try (match goal with H : sendable _ _ _ _ _ |- _ =>
         destruct (sendable_keeps X _ _ _ _ Kf H) as (Ho & _); cbn [f_opcode mkframe] in Ho; destruct H as (St & _) end; fields);
  try (split; [solve [auto]|solve [auto]]; fail);
  try (split; [solve [rewrite sent_frames_eof; auto]|solve [auto]]; fail);
  try (match goal with |- _ /\ closes_last (_ ++ [_] ++ ?l) =>
         assert (Hl : l = [] \/ l = [Eof]) by
           (unfold closing_items, eof_items; repeat match goal with |- context [if ?b then _ else _] => destruct b end; auto)
       end;
       split; [intros _; reflexivity|]; rewrite app_assoc; destruct Hl as [-> | ->];
       [rewrite app_nil_r; auto|auto]; fail);
  try (split; [intros _; reflexivity|solve [auto]]; fail).
  - split; [|auto]. rewrite sent_frames_snoc, has_close_snoc. intros [H9|H9]; [exfalso; apply No; auto|].
    unfold is_close in H9. match goal with H : data_call _ = _ |- _ => apply data_call_op in H as Hc end.
    rewrite <- Ho, H9 in Hc. discriminate Hc.
  - split; [|auto]. rewrite sent_frames_snoc, has_close_snoc. intros [H9|H9]; [exfalso; apply No; auto|].
    unfold is_close in H9. match goal with H : ctrl_call _ = _ |- _ => apply ctrl_call_op in H end.
    rewrite Ho in H9. intuition congruence.
  - split; [|auto]. rewrite sent_frames_snoc, has_close_snoc. intros [H9|H9]; [exfalso; apply No; auto|].
    unfold is_close in H9. congruence.
  - unfold eof_items. destruct (c_eof_sent c); [rewrite app_nil_r; auto|].
    split; [rewrite sent_frames_eof; auto|auto].
Qed.

(* ---- the end of the stream ---- *)

Fixpoint count_eof (l : list item) : nat :=
  match l with [] => 0 | Eof :: r => S (count_eof r) | _ :: r => count_eof r end.
Lemma count_eof_app l r : count_eof (l ++ r) = count_eof l + count_eof r.
Proof. induction l as [|[|f k] l IH]; simpl; congruence. Qed.

Definition inv_eof (a : abs) : Prop :=
  count_eof (a_is a) = if c_eof_sent (a_c a) then 1 else 0.

Lemma eof_step x y : inv_eof x -> astep x y -> inv_eof y.
Proof.
  unfold inv_eof. intros I S. destruct S; fields; 
  rewrite ?count_eof_app; cbn [count_eof]; rewrite ?Nat.add_0_r; try assumption;
  unfold closing_items, eof_items; fields;
  repeat match goal with |- context [is_server ?b] => destruct (is_server b) eqn:? end;
  try match goal with |- context [if c_eof_sent ?b then _ else _] => destruct (c_eof_sent b) end;
  cbn [count_eof]; try congruence; try lia;
  match goal with H : c_eof_sent _ = _ |- _ => rewrite H in I end; lia.
Qed.

(* nothing is written after the end of the stream, unless the stream from the peer ended
   unexpectedly *)
Definition eof_last (l : list item) : Prop := forall pre post, l = pre ++ Eof :: post -> post = [].

Definition inv_eof_last (a : abs) : Prop :=
  (c_eof_sent (a_c a) = true -> c_state (a_c a) <> OPEN) /\ eof_last (a_is a) \/
  a_ph a = Dead (Some EOFError).

Definition inv_rcvd_open (a : abs) : Prop :=
  a_ph a = Alive -> c_close_rcvd (a_c a) = true -> c_state (a_c a) <> OPEN.

Lemma rcvd_open_step x y : inv_rcvd_open x -> astep x y -> inv_rcvd_open y.
Proof.
  unfold inv_rcvd_open. intros I S. destruct S; fields; auto; try congruence; try discriminate.
Qed.

Lemma eof_last_step x y : inv_rcvd_open x -> inv_eof x -> inv_eof_last x -> astep x y -> inv_eof_last y.
Proof.
  intros R C [[I1 I2]|I] S.
  2: { right. destruct S; fields; try assumption; try discriminate I. }
  assert (AppS : forall i, c_eof_sent (a_c x) = false -> eof_last (a_is x ++ [i])).
  { intros i Es pre post He. destruct (snoc_split _ _ _ _ _ He) as [(-> & _)|(post' & -> & Hl)]; [reflexivity|].
    exfalso. unfold inv_eof in C. rewrite Es, Hl, count_eof_app in C. cbn [count_eof] in C. lia. }
  assert (AppSE : forall f k, c_eof_sent (a_c x) = false -> eof_last (a_is x ++ [Sent f k] ++ [Eof])).
  { intros f k Es pre post He. rewrite app_assoc in He. destruct (snoc_split _ _ _ _ _ He) as [(-> & _)|(post' & -> & Hl)]; [reflexivity|].
    exfalso. unfold inv_eof in C. rewrite Es in C. assert (C2 : count_eof (a_is x ++ [Sent f k]) = 0) by (rewrite count_eof_app, C; reflexivity).
    rewrite Hl, count_eof_app in C2. cbn [count_eof] in C2. lia. }
  unfold inv_eof_last. unfold inv_rcvd_open in R.
  destruct S; fields;
  try (match goal with H : sendable _ _ _ _ _ |- _ => destruct H as (St & _) end; fields);
  try (assert (Es : c_eof_sent c = false) by (destruct (c_eof_sent c) eqn:Q; [exfalso; apply I1; auto|reflexivity]));
  try (left; split; [solve [auto | intros; congruence]|solve [auto]]; fail);
  try (left; split; [intros _; discriminate|]; unfold closing_items, eof_items; rewrite Es; 
       try match goal with |- context [is_server ?b] => destruct (is_server b) end; rewrite ?app_nil_r; auto; fail).
  - (* failing quietly *)
    match goal with H : _ \/ _ |- _ => destruct H as [H9|H9] end.
    + right. destruct e; try discriminate H9. reflexivity.
    + left. split; [auto|]. unfold eof_items. destruct (c_eof_sent c) eqn:Es; [rewrite app_nil_r|]; auto.
Qed.

End Inv.
