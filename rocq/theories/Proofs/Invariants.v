(* Invariants of connection histories, by induction on the steps of Proofs/Steps.v. *)
From Verif Require Import Base.Prelude Base.PreludeFacts Model.Utils Model.Streams Model.Frames
  Model.Http11 Model.Connection Spec.Rfc6455 Spec.FrameSpec Spec.Messages Spec.History
  Proofs.StreamsFacts Proofs.FramesFacts Proofs.ParserFacts Proofs.AtomicFacts Proofs.ConnectionFacts
  Proofs.Steps Proofs.MessagesFacts.

Section Fields.
Context {E : Type}.
Implicit Type c : conn E.
Ltac t := intros; unfold sentc, closing; cbn [c_side set_exts set_state];
  match goal with |- context [if ?b then _ else _] => destruct b end; reflexivity.
Lemma sentc_state c x : c_state (sentc c x) = c_state c. Proof. t. Qed.
Lemma sentc_max c x : c_max_size (sentc c x) = c_max_size c. Proof. t. Qed.
Lemma sentc_cur c x : c_cur_size (sentc c x) = c_cur_size c. Proof. t. Qed.
Lemma sentc_exp c x : c_expect_cont (sentc c x) = c_expect_cont c. Proof. t. Qed.
Lemma sentc_rcvd c x : c_close_rcvd (sentc c x) = c_close_rcvd c. Proof. t. Qed.
Lemma sentc_code c x : c_close_code (sentc c x) = c_close_code c. Proof. t. Qed.
Lemma sentc_reason c x : c_close_reason (sentc c x) = c_close_reason c. Proof. t. Qed.
Lemma sentc_eof c x : c_eof_sent (sentc c x) = c_eof_sent c. Proof. t. Qed.
Lemma sentc_exts c x : c_exts (sentc c x) = x. Proof. t. Qed.
Lemma sentc_keys c x : c_keys (sentc c x) = c_keys c. Proof. t. Qed.
Lemma sentc_draws c x : c_draws (sentc c x) = if is_client (c_side c) then S (c_draws c) else c_draws c.
Proof. t. Qed.
Lemma closing_state c : c_state (closing c) = CLOSING. Proof. t. Qed.
Lemma closing_side c : c_side (closing c) = c_side c. Proof. t. Qed.
Lemma closing_max c : c_max_size (closing c) = c_max_size c. Proof. t. Qed.
Lemma closing_cur c : c_cur_size (closing c) = c_cur_size c. Proof. t. Qed.
Lemma closing_exp c : c_expect_cont (closing c) = c_expect_cont c. Proof. t. Qed.
Lemma closing_rcvd c : c_close_rcvd (closing c) = c_close_rcvd c. Proof. t. Qed.
Lemma closing_code c : c_close_code (closing c) = c_close_code c. Proof. t. Qed.
Lemma closing_reason c : c_close_reason (closing c) = c_close_reason c. Proof. t. Qed.
Lemma closing_exts c : c_exts (closing c) = c_exts c. Proof. t. Qed.
Lemma closing_keys c : c_keys (closing c) = c_keys c. Proof. t. Qed.
Lemma closing_draws c : c_draws (closing c) = c_draws c. Proof. t. Qed.
Lemma closing_eof c : c_eof_sent (closing c) = if is_server (c_side c) then true else c_eof_sent c.
Proof. t. Qed.
End Fields.

#[export] Hint Rewrite @sentc_side @sentc_state @sentc_max @sentc_cur @sentc_exp @sentc_rcvd @sentc_code
  @sentc_reason @sentc_eof @sentc_exts @sentc_keys @sentc_draws @closing_state @closing_side
  @closing_max @closing_cur @closing_exp @closing_rcvd @closing_code @closing_reason
  @closing_exts @closing_keys @closing_draws @closing_eof : conn.

(* compute the attributes of a connection after assignments *)
Ltac fields :=
  repeat progress (autorewrite with conn in *;
    cbn [a_c a_is a_ev a_ph set_state set_cur_size set_expect_cont set_exts set_close_rcvd set_close
         set_eof_sent set_draws set_events set_writes
         c_side c_state c_max_size c_cur_size c_expect_cont c_origin c_exts c_subprotocol
         c_close_rcvd c_close_code c_close_reason c_eof_sent c_events c_writes c_keys c_draws] in * ).

Section Inv.
Context {E : Type} (X : ext_ops E).
Implicit Type c : conn E.
Variable K : call -> Prop.

Notation abs := (abs E).
Notation astep := (astep X K).
Notation asteps := (asteps X K).

Lemma received_keeps c f exts : keeps_framing X -> received X c f exts ->
  exists f0, f_opcode f = f_opcode f0 /\ f_fin f = f_fin f0 /\ (is_ctrl (f_opcode f0) = true -> f = f0) /\
    fits (next_max_size c) (length (f_data f0)) /\ check f = Ok tt.
Proof.
  intros Kf (f0 & Fi & D & C). exists f0. destruct (decode_keeps X _ _ _ _ _ Kf D) as (A & B & G). auto.
Qed.

Lemma sendable_keeps c f exts f' : keeps_framing X -> sendable X c f exts f' ->
  f_opcode f' = f_opcode f /\ f_fin f' = f_fin f /\ (is_ctrl (f_opcode f) = true -> f' = f).
Proof. intros Kf (_ & _ & En & _). eapply encode_keeps; eassumption. Qed.

Lemma sendable_ctrl c f exts f' : keeps_framing X -> sendable X c f exts f' ->
  is_ctrl (f_opcode f) = true -> f' = f.
Proof. intros Kf S. apply (sendable_keeps c f exts f' Kf S). Qed.

(* ---- attributes that never change ---- *)

Lemma steps_const a : forall y, asteps a y ->
  c_side (a_c y) = c_side (a_c a) /\ c_max_size (a_c y) = c_max_size (a_c a) /\
  c_keys (a_c y) = c_keys (a_c a) /\
  (exists l, a_is y = a_is a ++ l) /\ (exists l, a_ev y = a_ev a ++ l).
Proof.
  apply (asteps_inv X K (fun y => c_side (a_c y) = c_side (a_c a) /\ c_max_size (a_c y) = c_max_size (a_c a) /\
     c_keys (a_c y) = c_keys (a_c a) /\
    (exists l, a_is y = a_is a ++ l) /\ (exists l, a_ev y = a_ev a ++ l))).
  - repeat split; exists []; now rewrite app_nil_r.
  - intros x y (A & B & D & (l & Hl) & (l' & Hl')) S. destruct S; fields; subst is; subst ev;
    (split; [assumption|]); (split; [assumption|]); (split; [assumption|]);
    (split; [rewrite <- ?app_assoc; eauto|rewrite <- ?app_assoc; eauto]).
Qed.

(* ---- receiving: messages, sizes, close frames ---- *)

(* decoding doesn't make a frame exceed the limit it is given *)
Definition honours_limit : Prop := forall e f n e' f',
  ext_decode X e f (Some n) = (e', Ok f') ->
  (Z.of_nat (length (f_data f)) <= n)%Z -> (Z.of_nat (length (f_data f')) <= n)%Z.

Lemma honours_decode exts f n exts' f' : honours_limit ->
  decode_reversed X exts f n = (exts', Ok f') -> fits n (length (f_data f)) -> fits n (length (f_data f')).
Proof.
  intros Hh. destruct n as [n|]; [|intros; exact I]. cbn [fits].
  revert exts' f'. induction exts as [|e exts IH]; intros exts' f' H Hf; cbn [decode_reversed] in H.
  - injection H as _ <-. exact Hf.
  - destruct (decode_reversed X exts f (Some n)) as [ex [f1|x]] eqn:En; [|discriminate].
    destruct (ext_decode X e f1 (Some n)) as [e' r] eqn:De. injection H as _ ->.
    eapply Hh; [exact De|]. eapply IH; [reflexivity|exact Hf].
Qed.

Definition size_of (cur : list frame) : option Z :=
  match cur with [] => None | _ => Some (Z.of_nat (message_size cur)) end.

Definition inv_messages (a : abs) : Prop :=
  exists done cur, message_sequence (frames_of (a_ev a)) done cur /\ c_cur_size (a_c a) = size_of cur /\
    (c_exts (a_c a) = [] \/ honours_limit -> forall m, c_max_size (a_c a) = Some m ->
       Forall (fun msg => (Z.of_nat (message_size msg) <= m)%Z) done /\
       (cur <> [] -> (Z.of_nat (message_size cur) <= m)%Z)).

Lemma size_of_snoc cur f : size_of (cur ++ [f]) =
  Some (match size_of cur with Some n => n + lenZ (f_data f) | None => lenZ (f_data f) end)%Z.
Proof.
  unfold lenZ. destruct cur as [|a cur].
  - simpl. unfold message_size. simpl. rewrite app_nil_r. reflexivity.
  - cbn [size_of]. change ((a :: cur) ++ [f]) with (a :: (cur ++ [f])). cbn [size_of].
    change (a :: (cur ++ [f])) with ((a :: cur) ++ [f]). rewrite message_size_snoc. f_equal. lia.
Qed.

Lemma inv_messages_other a a' evs :
  frames_of (a_ev a') = frames_of (a_ev a) ++ evs -> Forall (fun f => is_data_b f = false) evs ->
  c_cur_size (a_c a') = c_cur_size (a_c a) -> c_max_size (a_c a') = c_max_size (a_c a) ->
  (c_exts (a_c a') = [] \/ honours_limit -> c_exts (a_c a) = [] \/ honours_limit) ->
  inv_messages a -> inv_messages a'.
Proof.
  intros He Hd Hc Hm Hx (done & cur & M & C & L). exists done, cur. split; [|split; [congruence|]].
  - rewrite He. clear -M Hd. revert M. generalize (frames_of (a_ev a)). induction evs as [|f evs IH]; intros l M.
    + now rewrite app_nil_r.
    + replace (l ++ f :: evs) with ((l ++ [f]) ++ evs) by now rewrite <- app_assoc.
      inversion Hd; subst. apply IH; [assumption|]. now apply message_ctrl.
  - intros H m Hmm. rewrite Hm in Hmm. auto.
Qed.

Lemma not_nil {A} (l : list A) : l <> [] -> exists x r, l = x :: r.
Proof. destruct l; [contradiction|eauto]. Qed.

(* decoding keeps extensions present *)
Lemma decode_length exts f n exts' r : decode_reversed X exts f n = (exts', r) -> length exts' = length exts.
Proof.
  revert exts' r. induction exts as [|e exts IH]; intros exts' r H; cbn [decode_reversed] in H.
  - injection H as <- _. reflexivity.
  - destruct (decode_reversed X exts f n) as [ex [f1|x]] eqn:En.
    + destruct (ext_decode X e f1 n) as [e' r']. injection H as <- _. simpl. f_equal. eauto.
    + injection H as <- _. simpl. f_equal. eauto.
Qed.
Lemma encode_length exts : forall f exts' r, encode_in_order X exts f = (exts', r) -> length exts' = length exts.
Proof.
  induction exts as [|e exts IH]; intros f exts' r H; cbn [encode_in_order] in H.
  - injection H as <- _. reflexivity.
  - destruct (ext_encode X e f) as [e' [f1|x]].
    + destruct (encode_in_order X exts f1) as [ex r'] eqn:En. injection H as <- _. simpl. f_equal. eauto.
    + injection H as <- _. reflexivity.
Qed.
Lemma length_nil {A} (l l' : list A) : length l = length l' -> l = [] -> l' = [].
Proof. intros H ->. destruct l'; [reflexivity|discriminate]. Qed.

Lemma received_exts c f exts : received X c f exts -> length exts = length (c_exts c).
Proof. intros (f0 & _ & D & _). eapply decode_length; exact D. Qed.
Lemma sendable_exts c f exts f' : sendable X c f exts f' -> length exts = length (c_exts c).
Proof. intros (_ & _ & D & _). eapply encode_length; exact D. Qed.
Lemma unsendable_exts c f exts e : unsendable X c f exts e -> length exts = length (c_exts c).
Proof.
  intros [(_ & D & _)|[(_ & D & _)|[(_ & _ & D)|(_ & _ & _ & f' & D & _)]]]; try congruence; eapply encode_length; exact D.
Qed.
Lemma unreadable_exts c exts e : unreadable X c exts e -> length exts = length (c_exts c).
Proof.
  intros [[_ ?]|(f0 & _ & [D|(f & D & _)])]; [congruence|eapply decode_length; exact D|eapply decode_length; exact D].
Qed.

Lemma steps_exts a : forall y, asteps a y -> length (c_exts (a_c y)) = length (c_exts (a_c a)).
Proof.
  apply (asteps_inv X K (fun y => length (c_exts (a_c y)) = length (c_exts (a_c a)))); [reflexivity|].
  intros x y I S.
  destruct S; fields;
  repeat match goal with
  | H : received _ _ _ _ |- _ => apply received_exts in H
  | H : sendable _ _ _ _ _ |- _ => apply sendable_exts in H
  | H : unsendable _ _ _ _ _ |- _ => apply unsendable_exts in H
  | H : unreadable _ _ _ _ |- _ => apply unreadable_exts in H
  end; fields; try congruence.
  match goal with H : _ \/ _ |- _ => destruct H as [[-> _]|(? & ? & _ & U)] end; [exact I|].
  apply unsendable_exts in U. congruence.
Qed.

Lemma steps_noext a y : c_exts (a_c a) = [] -> asteps a y -> c_exts (a_c y) = [].
Proof. intros H S. eapply length_nil; [symmetry; apply (steps_exts a y S)|exact H]. Qed.

Lemma messages_step x y : keeps_framing X -> inv_messages x -> astep x y -> inv_messages y.
Proof.
  intros Kf I S.
  assert (Hx : c_exts (a_c y) = [] \/ honours_limit -> c_exts (a_c x) = [] \/ honours_limit).
  { intros [H|H]; [left|auto]. eapply length_nil; [|exact H]. 
    apply (steps_exts x y). eapply as_step; [apply as_refl|exact S]. }
  assert (Ctl : forall f ev, f_opcode f = PING \/ f_opcode f = PONG \/ f_opcode f = CLOSE ->
     frames_of (ev ++ [EvFrame f]) = frames_of ev ++ [f] /\ Forall (fun f => is_data_b f = false) [f]).
  { intros f ev Ho. split; [apply frames_of_snoc|]. constructor; [|constructor]. unfold is_data_b.
    destruct Ho as [->|[->| ->]]; reflexivity. }
  destruct S; fields;
  try (refine (inv_messages_other _ _ [] _ _ _ _ _ I);
       [symmetry; apply app_nil_r|constructor|fields; reflexivity|fields; reflexivity|fields; exact Hx]; fail);
  try (match goal with |- inv_messages (Abs _ _ (_ ++ [EvFrame ?f]) _) => destruct (Ctl f ev) as [C1 C2]; [intuition auto|] end;
       refine (inv_messages_other _ _ [f] _ _ _ _ _ I);
       [exact C1|exact C2|fields; reflexivity|fields; reflexivity|fields; exact Hx]; fail).
  (* a data frame *)
  destruct I as (done & cur & M & C & L). fields.
  match goal with H : in_order _ _ |- _ => rename H into Io end.
  match goal with H : received _ _ _ _ |- _ => rename H into R end.
  assert (N : next_ok cur f).
  { unfold in_order in Io. unfold next_ok. rewrite C in Io. destruct (f_opcode f); try contradiction.
    - destruct Io as [n Hn]. intros ->. discriminate.
    - destruct cur; [reflexivity|discriminate].
    - destruct cur; [reflexivity|discriminate]. }
  pose proof (message_data _ _ _ f M N) as M'. 
  assert (Lim : c_exts c = [] \/ honours_limit -> forall m, c_max_size c = Some m ->
                (Z.of_nat (message_size (cur ++ [f])) <= m)%Z).
  { intros H m Hm. rewrite message_size_snoc, Nat2Z.inj_add.
    assert (Fi : fits (next_max_size c) (length (f_data f))).
    { destruct R as (f0 & Fi & D & _). destruct H as [H|H].
      - rewrite H in D. cbn [decode_reversed] in D. injection D as _ <-. exact Fi.
      - eapply honours_decode; eassumption. }
    unfold next_max_size in Fi. rewrite Hm, C in Fi. destruct cur as [|a cur].
    - cbn [fits size_of] in *. unfold message_size. cbn [flat_map length]. lia.
    - cbn [fits size_of] in *. lia. }
  unfold inv_messages. fields. rewrite frames_of_snoc. unfold next_cur_size. destruct (f_fin f).
  - exists (done ++ [cur ++ [f]]), []. split; [exact M'|]. split; [reflexivity|].
    intros H m Hm. split; [|congruence]. apply Forall_app. split; [apply L; auto|]. constructor; [auto|constructor].
  - exists done, (cur ++ [f]). split; [exact M'|]. split.
    + rewrite C. symmetry. apply size_of_snoc.
    + intros H m Hm. split; [apply L; auto|auto].
Qed.

(* ---- receiving: nothing but control frames after a close frame ---- *)

Definition has_close (l : list frame) : Prop := Exists is_close l.

Definition inv_close_rcvd (a : abs) : Prop :=
  (has_close (frames_of (a_ev a)) -> c_close_rcvd (a_c a) = true) /\
  (a_ph a = Alive -> c_close_rcvd (a_c a) = true -> has_close (frames_of (a_ev a))) /\
  (forall pre f post, frames_of (a_ev a) = pre ++ f :: post -> is_close f -> data_frames post = []).

Lemma has_close_snoc l f : has_close (l ++ [f]) <-> has_close l \/ is_close f.
Proof.
  unfold has_close. rewrite Exists_app. split; (intros [H|H]; [auto|]).
  - inversion H as [? ? H1|? ? H1]; subst; [auto|inversion H1].
  - right. now constructor.
Qed.

Lemma snoc_split {A} (l : list A) x pre y post : l ++ [x] = pre ++ y :: post ->
  (post = [] /\ l = pre /\ x = y) \/ exists post', post = post' ++ [x] /\ l = pre ++ y :: post'.
Proof.
  destruct post as [|z post] using rev_ind.
  - intros H. apply app_inj_tail in H as [-> ->]. auto.
  - clear IHpost. intros H. replace (pre ++ y :: post ++ [z]) with ((pre ++ y :: post) ++ [z]) in H
      by (rewrite <- app_assoc; reflexivity).
    apply app_inj_tail in H as [-> ->]. right. eauto.
Qed.

Lemma close_rcvd_step x y : inv_close_rcvd x -> astep x y -> inv_close_rcvd y.
Proof.
  intros (I1 & I2 & I3) S. unfold inv_close_rcvd.
  assert (App : forall l f, 
     (forall pre g post, l = pre ++ g :: post -> is_close g -> data_frames post = []) ->
     (is_data_b f = true -> ~ has_close l) ->
     forall pre g post, l ++ [f] = pre ++ g :: post -> is_close g -> data_frames post = []).
  { intros l f H Hf pre g post He Hg. destruct (snoc_split _ _ _ _ _ He) as [(-> & _)|(post' & -> & Hl)]; [reflexivity|].
    rewrite data_frames_app, (H pre g post' Hl Hg). unfold data_frames. simpl. destruct (is_data_b f) eqn:D; [|reflexivity].
    exfalso. apply (Hf eq_refl). rewrite Hl. apply Exists_app. right. now constructor. }
  destruct S; fields;
  try (match goal with H : data_call _ = _ |- _ => idtac end; solve [auto]);
  try (split; [solve [auto]|split; [solve [auto | discriminate]|solve [auto]]]; fail);
  rewrite ?frames_of_snoc, ?has_close_snoc.
  - (* data *) assert (Hn : ~ has_close (frames_of ev)) by (intros H9; apply I1 in H9; congruence).
    split; [|split].
    + intros [H9|H9]; [auto|]. unfold is_close in H9.
      match goal with H : in_order _ _ |- _ => unfold in_order in H; rewrite H9 in H; contradiction end.
    + intros _ Hc. congruence.
    + apply App; auto.
  - split; [|split].
    + intros [H9|H9]; [auto|]. unfold is_close in H9. destruct H0 as [?|[? ?]]; congruence.
    + auto.
    + apply App; [exact I3|]. unfold is_data_b. destruct H0 as [->|[-> _]]; discriminate.
  - split; [|split].
    + intros [H9|H9]; [auto|]. unfold is_close in H9. congruence.
    + auto.
    + apply App; [exact I3|]. unfold is_data_b. rewrite H0. discriminate.
  - split; [auto|]. split; [intros _ _; right; assumption|].
    apply App; [exact I3|]. unfold is_data_b. rewrite H0. discriminate.
  - split; [auto|]. split; [intros _ _; right; assumption|].
    apply App; [exact I3|]. unfold is_data_b. rewrite H0. discriminate.
Qed.

End Inv.
