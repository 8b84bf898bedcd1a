(* The codec of Base/Utf8.v is RFC 3629. *)
From Verif Require Import Base.Prelude Base.PreludeFacts Base.Utf8 Base.Utf8Facts Spec.Utf8Spec.
Local Open Scope N_scope.
Local Ltac Zify.zify_post_hook ::= Z.div_mod_to_equations.

Lemma byte_val_eq (a : byte) n : b2n a = n -> n2b n = a.
Proof. intros <-. apply n2b_b2n. Qed.

Lemma utf8_char_encode c l : utf8_char c l -> utf8_encode_char c = Some l.
Proof.
  unfold utf8_encode_char. intros H; inversion H; subst; clear H;
  change Byte.to_N with b2n in *.
  - destruct (N.ltb_spec (b2n a) 128); [|lia]. now rewrite n2b_b2n.
  - destruct (N.ltb_spec (x * 64 + y) 128); [lia|]. destruct (N.ltb_spec (x * 64 + y) 2048); [|lia].
    repeat f_equal; apply byte_val_eq; lia.
  - set (c := (x * 64 + y) * 64 + z) in *.
    destruct (N.ltb_spec c 128); [lia|]. destruct (N.ltb_spec c 2048); [lia|].
    destruct (N.leb_spec 55296 c), (N.ltb_spec c 57344); simpl andb; try lia; cbv iota;
    (destruct (N.ltb_spec c 65536); [|lia]; repeat f_equal; apply byte_val_eq; lia).
  - set (c := ((x * 64 + y) * 64 + z) * 64 + t) in *.
    destruct (N.ltb_spec c 128); [lia|]. destruct (N.ltb_spec c 2048); [lia|].
    destruct (N.leb_spec 55296 c), (N.ltb_spec c 57344); simpl andb; try lia; cbv iota;
    (destruct (N.ltb_spec c 65536); [lia|]; destruct (N.ltb_spec c 1114112); [|lia];
     repeat f_equal; apply byte_val_eq; lia).
Qed.

Lemma utf8_encode_char_spec c l : utf8_encode_char c = Some l -> utf8_char c l.
Proof.
  unfold utf8_encode_char.
  destruct (N.ltb_spec c 128).
  { intros E. apply some_inj in E. subst l. apply utf8_1; [lia|]. apply b2n_n2b_small; lia. }
  destruct (N.ltb_spec c 2048).
  { intros E. apply some_inj in E. subst l. apply utf8_2 with (c / 64) (c mod 64); try lia;
      apply b2n_n2b_small; lia. }
  destruct (N.leb_spec 55296 c), (N.ltb_spec c 57344); cbn [andb]; cbv iota; try discriminate;
  (destruct (N.ltb_spec c 65536);
   [intros E; apply some_inj in E; subst l;
    apply utf8_3 with (c / 4096) ((c / 64) mod 64) (c mod 64); try lia;
      apply b2n_n2b_small; lia|]);
  (destruct (N.ltb_spec c 1114112); [|discriminate]);
  intros E; apply some_inj in E; subst l;
    apply utf8_4 with (c / 262144) ((c / 4096) mod 64) ((c / 64) mod 64) (c mod 64); try lia;
      apply b2n_n2b_small; lia.
Qed.

Theorem utf8_encode_spec t l : utf8_encode t = Ok l <-> utf8_text t l.
Proof.
  revert l. induction t as [|c t IH]; intros l; cbn [utf8_encode]; split.
  - intros H. apply ok_inj in H. subst. constructor.
  - intros H. inversion H. reflexivity.
  - destruct (utf8_encode_char c) as [e|] eqn:Ec; [|discriminate].
    destruct (utf8_encode t) as [r|] eqn:Et; [|discriminate].
    intros H. apply ok_inj in H. subst l. constructor; [now apply utf8_encode_char_spec|now apply IH].
  - intros H. inversion H as [|c' t' l' r Hc Ht]; subst. rewrite (utf8_char_encode _ _ Hc).
    apply IH in Ht. now rewrite Ht.
Qed.

Theorem utf8_decode_spec l t : utf8_decode l = Ok t <-> utf8_text t l.
Proof.
  rewrite <- utf8_encode_spec. split; [apply utf8_encode_decode|apply utf8_decode_encode].
Qed.

Theorem utf8_decode_fails l e : utf8_decode l = Raise e ->
  ~ valid_utf8 l /\ exists reason pos, e = UnicodeDecodeError reason pos.
Proof.
  intros H. split.
  - intros [t Ht]. apply utf8_decode_spec in Ht. congruence.
  - unfold utf8_decode in H. destruct (u_end (utf8_scan l)); try discriminate; injection H; eauto.
Qed.

Theorem utf8_encode_fails t e : utf8_encode t = Raise e ->
  e = UnicodeEncodeError /\ ~ exists l, utf8_text t l.
Proof.
  intros H. split.
  - revert e H. induction t as [|c t IH]; intros e H; cbn [utf8_encode] in H; [discriminate|].
    destruct (utf8_encode_char c); [|congruence]. destruct (utf8_encode t); [discriminate|].
    apply IH. congruence.
  - intros [l Hl]. apply utf8_encode_spec in Hl. congruence.
Qed.
