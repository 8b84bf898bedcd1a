(* Facts about base64. *)
From Verif Require Import Base.Prelude Base.PreludeFacts Base.Base64.
Local Open Scope N_scope.
Ltac Zify.zify_post_hook ::= Z.div_mod_to_equations.

Lemma b64_char_ok v : v < 64 ->
  b64_val (b64_char v) = Some v /\ byte_eqb (b64_char v) b64_pad = false.
Proof.
  intros H.
  assert (A : forallb (fun k => let v := N.of_nat k in
     match b64_val (b64_char v) with Some w => w =? v | None => false end
     && negb (byte_eqb (b64_char v) b64_pad)) (seq 0 64) = true) by (vm_compute; reflexivity).
  rewrite forallb_forall in A. specialize (A (N.to_nat v)).
  rewrite N2Nat.id in A. assert (I : In (N.to_nat v) (seq 0 64)) by (apply in_seq; lia).
  apply A in I. apply andb_true_iff in I. destruct I as [I1 I2].
  destruct (b64_val (b64_char v)); [|discriminate].
  apply N.eqb_eq in I1. apply negb_true_iff in I2. subst. auto.
Qed.

Lemma b64_val_char v : v < 64 -> b64_val (b64_char v) = Some v.
Proof. apply b64_char_ok. Qed.
Lemma b64_char_not_pad v : v < 64 -> byte_eqb (b64_char v) b64_pad = false.
Proof. apply b64_char_ok. Qed.

Lemma a2b_char v r quad left pads : v < 64 ->
  a2b (b64_char v :: r) quad left pads =
  match quad with
  | 0%nat => a2b r 1%nat v 0
  | 1%nat => let! o := a2b r 2%nat (v mod 16) 0 in Ok (n2b (left * 4 + v / 16) :: o)
  | 2%nat => let! o := a2b r 3%nat (v mod 4) 0 in Ok (n2b (left * 16 + v / 4) :: o)
  | _ => let! o := a2b r 0%nat 0 0 in Ok (n2b (left * 64 + v) :: o)
  end.
Proof. intros H. cbn [a2b]. now rewrite b64_char_not_pad, b64_val_char by assumption. Qed.

Lemma list_ind3 {A} (P : list A -> Prop) :
  P [] -> (forall x, P [x]) -> (forall x y, P [x; y]) ->
  (forall x y z r, P r -> P (x :: y :: z :: r)) -> forall l, P l.
Proof.
  intros H0 H1 H2 H3 l. cut (P l /\ (forall x, P (x :: l)) /\ (forall x y, P (x :: y :: l))).
  { tauto. }
  induction l as [|c l (I0 & I1 & I2)]; repeat split; auto.
Qed.

Lemma n2b_is n x : n = b2n x -> n2b n = x.
Proof. intros ->. apply n2b_b2n. Qed.

Ltac bnds := repeat match goal with
  | x : byte |- _ => lazymatch goal with
      | _ : b2n x < 256 |- _ => fail | _ => pose proof (b2n_lt x) end
  end.

Theorem b64decode_encode l : b64decode (b64encode l) = Ok l.
Proof.
  unfold b64decode. induction l as [|x|x y|x y z r IH] using list_ind3.
  - reflexivity.
  - cbn [b64encode]. bnds.
    rewrite a2b_char by lia. rewrite a2b_char by lia. cbn.
    f_equal. f_equal. apply n2b_is. lia.
  - cbn [b64encode]. bnds.
    rewrite !a2b_char by lia. cbn.
    f_equal. f_equal; [|f_equal]; apply n2b_is; lia.
  - cbn [b64encode]. bnds.
    rewrite !a2b_char by lia. rewrite IH. cbn [rbind].
    f_equal. f_equal; [|f_equal; [|f_equal]]; apply n2b_is; lia.
Qed.

Lemma b64_valid_encode l : b64_valid (b64encode l) = true.
Proof.
  induction l as [|x|x y|x y z r IH] using list_ind3; bnds; cbn [b64encode b64_valid].
  - reflexivity.
  - rewrite !b64_val_char by lia. reflexivity.
  - rewrite !b64_val_char by lia. reflexivity.
  - rewrite !b64_val_char by lia. exact IH.
Qed.

Theorem b64decode_validate_encode l : b64decode_validate (b64encode l) = Ok l.
Proof. unfold b64decode_validate. rewrite b64_valid_encode. apply b64decode_encode. Qed.

Lemma b64_alphabet v : v < 64 -> b2n (b64_char v) < 128 /\ 43 <= b2n (b64_char v).
Proof.
  intros H.
  assert (A : forallb (fun k => let v := N.of_nat k in
     (b2n (b64_char v) <? 128) && (43 <=? b2n (b64_char v))) (seq 0 64) = true)
    by (vm_compute; reflexivity).
  rewrite forallb_forall in A. specialize (A (N.to_nat v)).
  rewrite N2Nat.id in A. assert (I : In (N.to_nat v) (seq 0 64)) by (apply in_seq; lia).
  apply A in I. apply andb_true_iff in I. destruct I as [I1 I2].
  apply N.ltb_lt in I1. apply N.leb_le in I2. auto.
Qed.
