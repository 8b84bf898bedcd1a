(* Facts about Sec-WebSocket-Key: base64 of 16 bytes. *)
From Verif Require Import Base.Prelude Base.PreludeFacts Base.Utf8 Base.Utf8Facts Base.Base64 Base.Base64Facts
  Model.Utils Spec.Multimap Spec.Handshake.
Local Open Scope N_scope.
Local Ltac Zify.zify_post_hook ::= Z.div_mod_to_equations.

Lemma b64_val_digit x : (exists v, b64_val x = Some v) <-> base64_digit (b2n x).
Proof.
  unfold b64_val, base64_digit. set (c := b2n x). clearbody c.
  repeat match goal with |- context [?a <=? ?y] => destruct (N.leb_spec a y); cbn [andb] end;
  repeat match goal with |- context [?a =? ?y] => destruct (N.eqb_spec a y) end;
  (split; [intros [v Hv]; try discriminate Hv; lia|intros Hd; try (eexists; reflexivity); lia]).
Qed.
Lemma b64_val_bound x v : b64_val x = Some v -> v < 64.
Proof.
  unfold b64_val. set (c := b2n x). clearbody c.
  repeat match goal with |- context [?a <=? ?y] => destruct (N.leb_spec a y); cbn [andb] end;
  repeat match goal with |- context [?a =? ?y] => destruct (N.eqb_spec a y) end;
  intros Hv; try discriminate Hv; apply some_inj in Hv; lia.
Qed.
Lemma digit_not_pad x v : b64_val x = Some v -> byte_eqb x b64_pad = false.
Proof.
  intros H. destruct (byte_eqb x b64_pad) eqn:E; [|reflexivity]. apply byte_eqb_eq in E. subst. discriminate.
Qed.

Definition digits (x : bytes) : Prop := Forall (fun c => exists v, b64_val c = Some v) x.

(* the number of bytes produced by [n] digits, after [q] *)
Definition produced (n : nat) : nat := (n - (n + 3) / 4)%nat.

Lemma mod_next q n : (q < 4)%nat -> ((S q + n) mod 4 = (S q mod 4 + n) mod 4)%nat.
Proof. intros H. rewrite Nat.add_mod_idemp_l by discriminate. reflexivity. Qed.

Lemma a2b_digits x : digits x -> forall q left t, (q < 4)%nat ->
  exists left' pre, a2b (x ++ t) q left 0 = (let! o := a2b t ((q + length x) mod 4) left' 0 in Ok (pre ++ o)) /\
    (produced q + length pre = produced (q + length x))%nat.
Proof.
  induction 1 as [|c x [v Hv] F IH]; intros q left t Hq.
  - exists left, []. cbn [app length]. rewrite Nat.add_0_r, (Nat.mod_small q 4 Hq). split; [|cbn; lia].
    now destruct (a2b t q left 0).
  - cbn [app a2b length]. rewrite (digit_not_pad c v Hv), Hv.
    destruct q as [|[|[|[|q]]]]; [| | | |lia].
    + destruct (IH 1%nat v t ltac:(lia)) as (l' & pre & -> & Hp). exists l', pre. split; [reflexivity|]. exact Hp.
    + destruct (IH 2%nat (v mod 16) t ltac:(lia)) as (l' & pre & -> & Hp).
      exists l', (n2b (left * 4 + v / 16) :: pre). split.
      * replace (1 + S (length x))%nat with (2 + length x)%nat by lia.
        destruct (a2b t _ l' 0); reflexivity.
      * replace (1 + S (length x))%nat with (2 + length x)%nat by lia. rewrite <- Hp. cbn [length]. change (produced 2) with 1%nat. change (produced 1) with 0%nat. lia.
    + destruct (IH 3%nat (v mod 4) t ltac:(lia)) as (l' & pre & -> & Hp).
      exists l', (n2b (left * 16 + v / 4) :: pre). split.
      * replace (2 + S (length x))%nat with (3 + length x)%nat by lia.
        destruct (a2b t _ l' 0); reflexivity.
      * replace (2 + S (length x))%nat with (3 + length x)%nat by lia. rewrite <- Hp. cbn [length]. change (produced 3) with 2%nat. change (produced 2) with 1%nat. lia.
    + destruct (IH 0%nat 0 t ltac:(lia)) as (l' & pre & -> & Hp).
      exists l', (n2b (left * 64 + v) :: pre). split.
      * replace (3 + S (length x))%nat with (length x + 1 * 4)%nat by lia. rewrite Nat.mod_add by discriminate.
        cbn [Nat.add]. destruct (a2b t _ l' 0); reflexivity.
      * replace (3 + S (length x))%nat with (length x + 4)%nat by lia. cbn [length Nat.add] in *.
        change (produced 0) with 0%nat in Hp. change (produced 3) with 2%nat. unfold produced in *.
        replace (length x + 4 + 3)%nat with (length x + 3 + 1 * 4)%nat by lia. rewrite Nat.div_add by discriminate.
        assert ((length x + 3) / 4 <= length x)%nat; [|lia].
        destruct (Nat.eq_dec (length x) 0) as [->|Nz]; [cbn; lia|]. apply Nat.div_le_upper_bound; lia.
Qed.

Lemma b64_valid_view data : b64_valid data = true ->
  exists x t, data = x ++ t /\ digits x /\ (t = [] \/ t = [b64_pad] \/ t = [b64_pad; b64_pad]).
Proof.
  induction data as [|c r IH]; cbn [b64_valid].
  - intros _. exists [], []. split; [reflexivity|]. split; [constructor|auto].
  - destruct (b64_val c) as [v|] eqn:V.
    + intros H. destruct (IH H) as (x & t & -> & D & T). exists (c :: x), t. split; [reflexivity|]. split; [constructor; eauto|exact T].
    + intros H. exists [], (c :: r). split; [reflexivity|]. split; [constructor|]. right.
      cbn [b64_padding] in H. apply andb_true_iff in H as [H1 H2]. apply byte_eqb_eq in H1. subst c.
      destruct r as [|d r]; [now left|]. cbn [b64_padding] in H2. apply andb_true_iff in H2 as [H1 H2]. apply byte_eqb_eq in H1. subst d.
      destruct r; [now right|discriminate].
Qed.

Lemma a2b_error bs : forall q left p e, a2b bs q left p = Raise e -> e = BinasciiError.
Proof.
  induction bs as [|c r IH]; intros q left p e; cbn [a2b].
  - destruct q; congruence.
  - destruct (byte_eqb c b64_pad); [destruct (_ && _); [discriminate|apply IH]|].
    destruct (b64_val c) as [v|]; [|apply IH].
    destruct q as [|[|[|q]]]; [apply IH| | |];
      (match goal with |- context [a2b r ?q ?l ?p] => destruct (a2b r q l p) eqn:A end; cbn [rbind]; [discriminate|];
       intros [= <-]; eapply IH; exact A).
Qed.
Lemma b64decode_validate_error bs e : b64decode_validate bs = Raise e -> e = BinasciiError.
Proof. unfold b64decode_validate. destruct (b64_valid bs); [apply a2b_error|congruence]. Qed.

Lemma decode_16 data raw : b64decode_validate data = Ok raw -> length raw = 16%nat ->
  exists x, data = x ++ [b64_pad; b64_pad] /\ digits x /\ length x = 22%nat.
Proof.
  unfold b64decode_validate, b64decode. destruct (b64_valid data) eqn:V; [|discriminate].
  apply b64_valid_view in V as (x & t & -> & D & T). intros A L.
  destruct (a2b_digits x D 0 0 t ltac:(lia)) as (l' & pre & E & P). rewrite E in A. clear E.
  cbn [Nat.add] in *. change (produced 0) with 0%nat in P. cbn [Nat.add] in P.
  pose proof (Nat.div_mod (length x) 4 ltac:(discriminate)) as Dm. pose proof (Nat.mod_upper_bound (length x) 4 ltac:(discriminate)) as Mb.
  set (k := (length x / 4)%nat) in *. set (q := (length x mod 4)%nat) in *.
  assert (Pq : produced (length x) = (3 * k + produced q)%nat).
  { unfold produced. rewrite Dm. replace (4 * k + q + 3)%nat with (q + 3 + k * 4)%nat by lia. rewrite Nat.div_add by discriminate.
    destruct q as [|[|[|[|q']]]]; [cbn; lia|cbn; lia|cbn; lia|cbn; lia|lia]. }
  destruct q as [|[|[|[|q']]]] eqn:Q; [| | | |lia]; change (produced 0) with 0%nat in Pq; change (produced 1) with 0%nat in Pq;
    change (produced 2) with 1%nat in Pq; change (produced 3) with 2%nat in Pq.
  - destruct T as [->|[->| ->]]; cbn in A; apply ok_inj in A; subst raw; rewrite app_length in L; cbn in L; lia.
  - destruct T as [->|[->| ->]]; cbn in A; discriminate.
  - destruct T as [->|[->| ->]]; cbn in A; try discriminate. apply ok_inj in A. subst raw. rewrite app_length in L. cbn in L.
    exists x. split; [reflexivity|]. split; [exact D|lia].
  - destruct T as [->|[->| ->]]; cbn in A; try discriminate; apply ok_inj in A; subst raw; rewrite app_length in L; cbn in L; lia.
Qed.
Lemma decode_22 x : digits x -> length x = 22%nat ->
  exists raw, b64decode_validate (x ++ [b64_pad; b64_pad]) = Ok raw /\ length raw = 16%nat.
Proof.
  intros D L. unfold b64decode_validate, b64decode.
  assert (V : b64_valid (x ++ [b64_pad; b64_pad]) = true).
  { clear L. induction D as [|c x [v Hv] D IH]; [reflexivity|]. cbn [app b64_valid]. now rewrite Hv. }
  rewrite V. destruct (a2b_digits x D 0 0 [b64_pad; b64_pad] ltac:(lia)) as (l' & pre & E & P). rewrite E. rewrite L in *.
  cbn. eexists. split; [reflexivity|]. rewrite app_nil_r. exact P.
Qed.

Lemma digit_ascii c : base64_digit c -> c < 128.
Proof. unfold base64_digit. lia. Qed.

Lemma encode_inj_ascii key x : utf8_encode key = Ok x -> Forall (fun c => b2n c < 128) x -> key = map b2n x.
Proof.
  intros E F. assert (E' : utf8_encode (map b2n x) = Ok x).
  { rewrite utf8_encode_ascii; [|apply Forall_map; exact F]. rewrite map_map. f_equal. rewrite <- (map_id x) at 2. apply map_ext. apply n2b_b2n. }
  apply utf8_decode_encode in E, E'. rewrite E in E'. now apply ok_inj in E'.
Qed.

(* What the server checks. *)
Theorem key_checked key :
  (exists data raw, utf8_encode key = Ok data /\ b64decode_validate data = Ok raw /\ length raw = 16%nat) <-> valid_key key.
Proof.
  split.
  - intros (data & raw & En & De & L). apply decode_16 in De as (x & -> & D & Lx); [|exact L].
    assert (A : Forall (fun c => b2n c < 128) (x ++ [b64_pad; b64_pad])).
    { apply Forall_app. split; [|repeat constructor]. eapply Forall_impl; [|exact D]. intros c H. now apply b64_val_digit, digit_ascii in H. }
    apply encode_inj_ascii in En; [|exact A]. exists (map b2n x). rewrite En, map_app. split; [reflexivity|]. rewrite map_length. split; [exact Lx|].
    apply Forall_map. eapply Forall_impl; [|exact D]. intros c. apply b64_val_digit.
  - intros (x & -> & L & F).
    assert (D : digits (map n2b x)).
    { apply Forall_map. eapply Forall_impl; [|exact F]. intros c H. apply b64_val_digit. rewrite b2n_n2b, N.mod_small; [exact H|].
      apply digit_ascii in H. lia. }
    destruct (decode_22 (map n2b x) D ltac:(now rewrite map_length)) as (raw & E & Lr).
    exists (map n2b (x ++ s "==")), raw. split; [|split; [|exact Lr]].
    + apply utf8_encode_ascii. apply Forall_app. split; [|repeat constructor]. eapply Forall_impl; [|exact F]. apply digit_ascii.
    + rewrite map_app. exact E.
Qed.

Lemma valid_key_ascii key : valid_key key -> Forall (fun c => c < 128) key.
Proof.
  intros (x & -> & _ & F). apply Forall_app. split; [|repeat constructor]. eapply Forall_impl; [|exact F]. apply digit_ascii.
Qed.

Lemma b64encode_ascii l : Forall (fun c => b2n c < 128) (b64encode l).
Proof.
  assert (A : forall v, v < 64 -> b2n (b64_char v) < 128) by (intros; now apply b64_alphabet).
  induction l as [|x|x y|x y z r IH] using list_ind3; bnds; cbn [b64encode].
  - constructor.
  - repeat (apply Forall_cons; [first [apply A; lia|reflexivity]|]). constructor.
  - repeat (apply Forall_cons; [first [apply A; lia|reflexivity]|]). constructor.
  - repeat (apply Forall_cons; [first [apply A; lia|reflexivity]|]). exact IH.
Qed.

(* keys generated by the client *)
Lemma generated_key_valid token : length token = 16%nat -> valid_key (generate_key token).
Proof.
  intros L. apply key_checked. exists (b64encode token), token. unfold generate_key. split; [|split; [|exact L]].
  - rewrite utf8_encode_ascii.
    + rewrite map_map. f_equal. rewrite <- (map_id (b64encode token)) at 2. apply map_ext. apply n2b_b2n.
    + apply Forall_map, b64encode_ascii.
  - apply b64decode_validate_encode.
Qed.
