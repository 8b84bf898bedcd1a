(* The size of messages, with an extension that doesn't honour a limit of 0. *)
From Verif Require Import Base.Prelude Base.PreludeFacts Model.Utils Model.Streams Model.Frames Model.Connection Spec.Rfc6455 Spec.FrameSpec
  Spec.Messages Spec.History Spec.Deflate Model.PermessageDeflate Proofs.FramesFacts Proofs.ConnectionFacts Proofs.Steps Proofs.MessagesFacts Proofs.Invariants.
Local Open Scope Z_scope.

Section Limit.
Context {E : Type} (X : ext_ops E) (K : call -> Prop).
Notation abs := (abs E).
Notation astep := (astep X K).

Definition honours_nonzero : Prop := forall e f n e' f', n <> 0 ->
  ext_decode X e f (Some n) = (e', Ok f') ->
  Z.of_nat (length (f_data f)) <= n -> Z.of_nat (length (f_data f')) <= n.
Lemma nonzero_decode exts f n exts' f' : honours_nonzero ->
  decode_reversed X exts f n = (exts', Ok f') -> fits n (length (f_data f)) -> n <> Some 0 -> fits n (length (f_data f')).
Proof.
  intros Hh H Hf Nz. revert H Hf. destruct n as [n|]; [|intros; exact I]. cbn [fits].
  revert exts' f'. induction exts as [|e exts IH]; intros exts' f' H Hf; cbn [decode_reversed] in H.
  - injection H as _ <-. exact Hf.
  - destruct (decode_reversed X exts f (Some n)) as [ex [f1|x]] eqn:En; [|discriminate].
    destruct (ext_decode X e f1 (Some n)) as [e' r] eqn:De. injection H as _ ->.
    eapply Hh; [|exact De|]; [congruence|]. eapply IH; [reflexivity|exact Hf].
Qed.

Definition inv_limited (a : abs) : Prop :=
  exists done cur, message_sequence (frames_of (a_ev a)) done cur /\ c_cur_size (a_c a) = size_of cur /\
    (forall m, c_max_size (a_c a) = Some m -> Forall (limited m) done /\ (cur <> [] -> limited m cur)).

Lemma inv_limited_other (a a' : abs) evs :
  frames_of (a_ev a') = frames_of (a_ev a) ++ evs -> Forall (fun f => is_data_b f = false) evs ->
  c_cur_size (a_c a') = c_cur_size (a_c a) -> c_max_size (a_c a') = c_max_size (a_c a) ->
  inv_limited a -> inv_limited a'.
Proof.
  intros He Hd Hc Hm (done & cur & M & C & L). exists done, cur. split; [|split; [congruence|]].
  - rewrite He. clear -M Hd. revert M. generalize (frames_of (a_ev a)). induction evs as [|f evs IH]; intros l M.
    + now rewrite app_nil_r.
    + replace (l ++ f :: evs) with ((l ++ [f]) ++ evs) by now rewrite <- app_assoc.
      inversion Hd; subst. apply IH; [assumption|]. now apply message_ctrl.
  - intros m Hmm. rewrite Hm in Hmm. auto.
Qed.

Lemma limited_step x y : keeps_framing X -> honours_nonzero -> inv_limited x -> astep x y -> inv_limited y.
Proof.
  intros Kf Hh I S.
  assert (Ctl : forall f ev, f_opcode f = PING \/ f_opcode f = PONG \/ f_opcode f = CLOSE ->
     frames_of (ev ++ [EvFrame f]) = frames_of ev ++ [f] /\ Forall (fun f => is_data_b f = false) [f]).
  { intros f ev Ho. split; [apply frames_of_snoc|]. constructor; [|constructor]. unfold is_data_b.
    destruct Ho as [->|[->| ->]]; reflexivity. }
  destruct S; fields;
  try (refine (inv_limited_other _ _ [] _ _ _ _ I);
       [symmetry; apply app_nil_r|constructor|fields; reflexivity|fields; reflexivity]; fail);
  try (match goal with |- inv_limited (Abs _ _ (_ ++ [EvFrame ?f]) _) => destruct (Ctl f ev) as [C1 C2]; [intuition auto|] end;
       refine (inv_limited_other _ _ [f] _ _ _ _ I);
       [exact C1|exact C2|fields; reflexivity|fields; reflexivity]; fail).
  destruct I as (done & cur & M & C & L). fields.
  match goal with H : in_order _ _ |- _ => rename H into Io end.
  match goal with H : received _ _ _ _ |- _ => rename H into R end.
  assert (N : next_ok cur f).
  { unfold in_order in Io. unfold next_ok. rewrite C in Io. destruct (f_opcode f); try contradiction.
    - destruct Io as [n Hn]. intros ->. discriminate.
    - destruct cur; [reflexivity|discriminate].
    - destruct cur; [reflexivity|discriminate]. }
  pose proof (message_data _ _ _ f M N) as M'.
  assert (Lim : forall m, c_max_size c = Some m -> limited m (cur ++ [f])).
  { intros m Hm. destruct (L m Hm) as [_ Lc].
    assert (Lc' : cur = [] \/ limited m cur) by (destruct cur; [auto|right; apply Lc; discriminate]).
    destruct Lc' as [->|[Lc'|(pre & post & -> & Np & Sz)]].
    - destruct (Z.eq_dec m 0) as [->|Nz]. { right. exists [], [f]. repeat split; discriminate. }
      left. destruct R as (f0 & Fi & D & _). unfold next_max_size in Fi, D. rewrite Hm, C in Fi, D. cbn [size_of] in Fi, D.
      pose proof (nonzero_decode _ _ _ _ _ Hh D Fi) as Ff. cbn [fits] in Ff. specialize (Ff (fun Hx => ltac:(apply some_inj in Hx; lia))). unfold message_size. cbn [app flat_map]. rewrite app_nil_r. exact Ff.
    - destruct (Z.eq_dec (Z.of_nat (message_size cur)) m) as [Em|Nm]. { right. exists cur, [f]. split; [reflexivity|]. split; [discriminate|exact Em]. }
      left. destruct R as (f0 & Fi & D & _). unfold next_max_size in Fi, D. rewrite Hm, C in Fi, D. rewrite message_size_snoc, Nat2Z.inj_add.
      destruct cur as [|a cur].
      + cbn [size_of] in Fi, D. change (Z.of_nat (message_size [])) with 0 in Nm. pose proof (nonzero_decode _ _ _ _ _ Hh D Fi) as Ff. cbn [fits] in Ff. specialize (Ff (fun Hx => ltac:(apply some_inj in Hx; lia))).
        change (Z.of_nat (message_size [])) with 0. lia.
      + cbn [size_of] in Fi, D. pose proof (nonzero_decode _ _ _ _ _ Hh D Fi) as Ff. cbn [fits] in Ff. specialize (Ff (fun Hx => ltac:(apply some_inj in Hx; lia))). lia.
    - right. exists pre, (post ++ [f]). split; [now rewrite app_assoc|]. split; [now destruct post|exact Sz]. }
  unfold inv_limited. fields. rewrite frames_of_snoc. unfold next_cur_size. destruct (f_fin f).
  - exists (done ++ [cur ++ [f]]), []. split; [exact M'|]. split; [reflexivity|].
    intros m Hm. split; [|congruence]. apply Forall_app. split; [apply L; auto|]. constructor; [auto|constructor].
  - exists done, (cur ++ [f]). split; [exact M'|]. split.
    + rewrite C. symmetry. apply size_of_snoc.
    + intros m Hm. split; [apply L; auto|auto].
Qed.
End Limit.
