(* Facts about the UTF-8 codec. *)
From Verif Require Import Base.Prelude Base.PreludeFacts Base.Utf8.
Local Open Scope N_scope.
Ltac Zify.zify_post_hook ::= Z.div_mod_to_equations.

Ltac bdestr :=
  repeat match goal with
  | |- context [?x <? ?y] => destruct (N.ltb_spec x y); try lia
  | |- context [?x <=? ?y] => destruct (N.leb_spec x y); try lia
  | |- context [?x =? ?y] => destruct (N.eqb_spec x y); try lia
  end.

Ltac fix_char c :=
  match goal with |- ucons ?x _ _ = _ => replace x with c by lia end; reflexivity.

Lemma utf8_scan_cons_ascii c r :
  b2n c < 128 -> utf8_scan (c :: r) = ucons (b2n c) 1 (utf8_scan r).
Proof. intros H. cbn [utf8_scan]. destruct (N.ltb_spec (b2n c) 128); [reflexivity|lia]. Qed.

(* Scanning the encoding of a character followed by anything. *)
Lemma utf8_scan_char c e r :
  utf8_encode_char c = Some e ->
  utf8_scan (e ++ r) = ucons c (lenN e) (utf8_scan r).
Proof.
  unfold utf8_encode_char.
  destruct (N.ltb_spec c 128).
  { intros E; apply some_inj in E; subst e. cbn [app].
    rewrite utf8_scan_cons_ascii; rewrite b2n_n2b_small by lia; [reflexivity|lia]. }
  destruct (N.ltb_spec c 2048).
  { intros E; apply some_inj in E; subst e. cbn [app utf8_scan].
    unfold is_cont, cbits.
    rewrite !b2n_n2b_small by lia.
    bdestr. cbn [andb]. fix_char c. }
  destruct ((55296 <=? c) && (c <? 57344)) eqn:Hsur; [discriminate|].
  destruct (N.ltb_spec c 65536).
  { intros E; apply some_inj in E; subst e. cbn [app utf8_scan].
    unfold is_cont, cbits, ok3. rewrite !b2n_n2b_small by lia.
    bdestr; cbn [andb orb negb]; try (exfalso; lia); fix_char c. }
  destruct (N.ltb_spec c 1114112); [|discriminate].
  intros E; apply some_inj in E; subst e. cbn [app utf8_scan].
  unfold is_cont, cbits, ok4. rewrite !b2n_n2b_small by lia.
  bdestr; cbn [andb orb negb]; try (exfalso; lia); fix_char c.
Qed.

Lemma utf8_scan_encode t e r :
  utf8_encode t = Ok e ->
  utf8_scan (e ++ r) =
  {| u_text := t ++ u_text (utf8_scan r);
     u_pos := lenN e + u_pos (utf8_scan r);
     u_end := u_end (utf8_scan r) |}.
Proof.
  revert e. induction t as [|c t IH]; intros e E; cbn [utf8_encode] in E.
  - inversion E; subst. cbn [app lenN]. destruct (utf8_scan r); reflexivity.
  - destruct (utf8_encode_char c) as [e1|] eqn:E1; [|discriminate].
    destruct (utf8_encode t) as [e2|] eqn:E2; [|discriminate].
    inversion E; subst; clear E. rewrite <- app_assoc.
    rewrite (utf8_scan_char _ _ _ E1), (IH _ eq_refl). unfold ucons; cbn [u_text u_pos u_end].
    rewrite lenN_app. f_equal. lia.
Qed.

Theorem utf8_decode_encode t e : utf8_encode t = Ok e -> utf8_decode e = Ok t.
Proof.
  intros E. unfold utf8_decode. rewrite <- (app_nil_r e).
  rewrite (utf8_scan_encode _ _ [] E). cbn. now rewrite app_nil_r.
Qed.

(* What one decoding step recognises. *)
Inductive uview : bytes -> uscan -> Prop :=
| v_nil : uview [] (ustop UDone)
| v_char c e r : utf8_encode_char c = Some e ->
    uview (e ++ r) (ucons c (lenN e) (utf8_scan r))
| v_trunc x : x <> [] -> (length x < 4)%nat -> uview x (ustop (UTrunc x))
| v_bad x why : x <> [] ->
    (forall r, utf8_scan (x ++ r) = ustop (UBad why)) -> uview x (ustop (UBad why)).

Lemma n2b_eq c n : n = b2n c -> n2b n = c.
Proof. intros ->. apply n2b_b2n. Qed.

Lemma enc2 c0 c1 : 194 <= b2n c0 < 224 -> is_cont c1 = true ->
  utf8_encode_char ((b2n c0 - 192) * 64 + cbits c1) = Some [c0; c1].
Proof.
  unfold is_cont, cbits, utf8_encode_char. intros H H1.
  bdestr. f_equal. f_equal; [apply n2b_eq; lia|f_equal; apply n2b_eq; lia].
Qed.

Lemma enc3 c0 c1 c2 : 224 <= b2n c0 < 240 -> is_cont c1 = true ->
  ok3 (b2n c0) (b2n c1) = true -> is_cont c2 = true ->
  utf8_encode_char ((b2n c0 - 224) * 4096 + cbits c1 * 64 + cbits c2) = Some [c0; c1; c2].
Proof.
  unfold is_cont, cbits, ok3, utf8_encode_char. intros H H1 H2 H3.
  assert (B1 : 128 <= b2n c1 < 192) by lia.
  assert (B2 : 128 <= b2n c2 < 192) by lia.
  assert (O : (b2n c0 = 224 -> 160 <= b2n c1) /\ (b2n c0 = 237 -> b2n c1 < 160)).
  { destruct (N.ltb_spec (b2n c1) 160); split; intros; try lia. }
  clear H1 H2 H3. set (x := (b2n c0 - 224) * 4096 + (b2n c1 - 128) * 64 + (b2n c2 - 128)).
  assert (Hx : 2048 <= x < 65536) by (unfold x; lia).
  assert (Hs : x < 55296 \/ 57344 <= x) by (unfold x; lia).
  destruct (N.ltb_spec x 128); [lia|]. destruct (N.ltb_spec x 2048); [lia|].
  destruct ((55296 <=? x) && (x <? 57344)) eqn:E; [lia|].
  destruct (N.ltb_spec x 65536); [|lia].
  f_equal. f_equal; [apply n2b_eq; unfold x; lia|f_equal;
    [apply n2b_eq; unfold x; lia|f_equal; apply n2b_eq; unfold x; lia]].
Qed.

Lemma enc4 c0 c1 c2 c3 : 240 <= b2n c0 < 245 -> is_cont c1 = true ->
  ok4 (b2n c0) (b2n c1) = true -> is_cont c2 = true -> is_cont c3 = true ->
  utf8_encode_char ((b2n c0 - 240) * 262144 + cbits c1 * 4096 + cbits c2 * 64 + cbits c3)
  = Some [c0; c1; c2; c3].
Proof.
  unfold is_cont, cbits, ok4, utf8_encode_char. intros H H1 H2 H3 H4.
  assert (B1 : 128 <= b2n c1 < 192) by lia.
  assert (B2 : 128 <= b2n c2 < 192) by lia.
  assert (B3 : 128 <= b2n c3 < 192) by lia.
  assert (O : (b2n c0 = 240 -> 144 <= b2n c1) /\ (b2n c0 = 244 -> b2n c1 < 144)).
  { destruct (N.ltb_spec (b2n c1) 144); split; intros; try lia. }
  clear H1 H2 H3 H4.
  set (x := (b2n c0 - 240) * 262144 + (b2n c1 - 128) * 4096 + (b2n c2 - 128) * 64 + (b2n c3 - 128)).
  assert (Hx : 65536 <= x < 1114112) by (unfold x; lia).
  destruct (N.ltb_spec x 128); [lia|]. destruct (N.ltb_spec x 2048); [lia|].
  destruct ((55296 <=? x) && (x <? 57344)) eqn:E; [lia|].
  destruct (N.ltb_spec x 65536); [lia|]. destruct (N.ltb_spec x 1114112); [|lia].
  f_equal. repeat (f_equal; try (apply n2b_eq; unfold x; lia)).
Qed.

Ltac bad_tac := apply v_bad; [discriminate|]; intros r; cbn [app utf8_scan];
  repeat match goal with
  | H : (_ <? _) = _ |- _ => rewrite H
  | H : is_cont _ = _ |- _ => rewrite H
  | H : _ || _ = _ |- _ => rewrite H
  | H : negb _ = _ |- _ => rewrite H
  end; reflexivity.

Lemma utf8_scan_view x : uview x (utf8_scan x).
Proof.
  destruct x as [|c0 r0]; [constructor|].
  cbn [utf8_scan].
  destruct (b2n c0 <? 128) eqn:H0.
  { change (c0 :: r0) with ([c0] ++ r0).
    replace (ucons (b2n c0) 1 (utf8_scan r0)) with (ucons (b2n c0) (lenN [c0]) (utf8_scan r0)) by reflexivity.
    apply v_char. unfold utf8_encode_char. rewrite H0. now rewrite n2b_b2n. }
  destruct (b2n c0 <? 194) eqn:H1; [bad_tac|].
  destruct (b2n c0 <? 224) eqn:H2.
  { destruct r0 as [|c1 r1]; [apply v_trunc; simpl; [discriminate|lia]|].
    destruct (is_cont c1) eqn:C1; [|bad_tac].
    change (c0 :: c1 :: r1) with ([c0; c1] ++ r1).
    change 2 with (lenN [c0; c1]). apply v_char. apply enc2; [lia|assumption]. }
  destruct (b2n c0 <? 240) eqn:H3.
  { destruct r0 as [|c1 r1]; [apply v_trunc; simpl; [discriminate|lia]|].
    destruct (negb (is_cont c1) || negb (ok3 (b2n c0) (b2n c1))) eqn:C1; [bad_tac|].
    destruct r1 as [|c2 r2]; [apply v_trunc; simpl; [discriminate|lia]|].
    destruct (is_cont c2) eqn:C2; [|bad_tac].
    change (c0 :: c1 :: c2 :: r2) with ([c0; c1; c2] ++ r2).
    change 3 with (lenN [c0; c1; c2]). apply v_char.
    apply orb_false_iff in C1. rewrite !negb_false_iff in C1. destruct C1.
    apply enc3; try assumption; lia. }
  destruct (b2n c0 <? 245) eqn:H4; [|bad_tac].
  destruct r0 as [|c1 r1]; [apply v_trunc; simpl; [discriminate|lia]|].
  destruct (negb (is_cont c1) || negb (ok4 (b2n c0) (b2n c1))) eqn:C1; [bad_tac|].
  destruct r1 as [|c2 r2]; [apply v_trunc; simpl; [discriminate|lia]|].
  destruct (negb (is_cont c2)) eqn:C2; [bad_tac|].
  destruct r2 as [|c3 r3]; [apply v_trunc; simpl; [discriminate|lia]|].
  destruct (is_cont c3) eqn:C3; [|bad_tac].
  change (c0 :: c1 :: c2 :: c3 :: r3) with ([c0; c1; c2; c3] ++ r3).
  change 4 with (lenN [c0; c1; c2; c3]). apply v_char.
  apply orb_false_iff in C1. rewrite !negb_false_iff in *. destruct C1.
  apply enc4; try assumption; lia.
Qed.

Lemma utf8_encode_char_nonempty c e : utf8_encode_char c = Some e -> e <> [].
Proof.
  unfold utf8_encode_char.
  repeat match goal with |- context [if ?c then _ else _] => destruct c end;
  intros E; inversion E; discriminate.
Qed.

(* Decoding is the inverse of encoding: every decoded text re-encodes to the bytes. *)
Lemma utf8_scan_sound : forall n x, (length x <= n)%nat ->
  exists e rest, x = e ++ rest /\ utf8_encode (u_text (utf8_scan x)) = Ok e /\
    u_pos (utf8_scan x) = lenN e /\
    match u_end (utf8_scan x) with
    | UDone => rest = []
    | UTrunc r => r = rest /\ rest <> [] /\ (length rest < 4)%nat /\ utf8_scan rest = ustop (UTrunc rest)
    | UBad why => rest <> [] /\ forall r, utf8_scan (rest ++ r) = ustop (UBad why)
    end.
Proof.
  induction n as [|n IH]; intros x Hx.
  { destruct x; [|simpl in Hx; lia]. exists [], []. simpl. auto. }
  pose proof (utf8_scan_view x) as V.
  remember (utf8_scan x) as sc eqn:Esc. destruct V as [|c e r Ec|x Hne|x why Hne Hbad].
  - exists [], []. simpl. auto.
  - destruct (IH r) as (e2 & rest & -> & He2 & Hp & Hend).
    { pose proof (utf8_encode_char_nonempty _ _ Ec). destruct e; [congruence|].
      rewrite app_length in Hx. simpl in Hx. lia. }
    exists (e ++ e2), rest. rewrite app_assoc. split; [reflexivity|].
    cbn [ucons u_text u_pos u_end utf8_encode]. rewrite Ec, He2, Hp, lenN_app. auto.
  - exists [], x. simpl. repeat split; auto.
  - exists [], x. simpl. repeat split; auto.
Qed.

Theorem utf8_encode_decode bs t : utf8_decode bs = Ok t -> utf8_encode t = Ok bs.
Proof.
  unfold utf8_decode. destruct (utf8_scan_sound (length bs) bs (le_n _)) as (e & rest & E & He & _ & Hend).
  destruct (u_end (utf8_scan bs)); try discriminate. intros T; apply ok_inj in T.
  subst rest t. rewrite app_nil_r in E. rewrite He. f_equal. symmetry. exact E.
Qed.

(* Scanning a concatenation. *)
Theorem utf8_scan_app x y :
  utf8_scan (x ++ y) =
  match u_end (utf8_scan x) with
  | UDone => {| u_text := u_text (utf8_scan x) ++ u_text (utf8_scan y);
                u_pos := u_pos (utf8_scan x) + u_pos (utf8_scan y);
                u_end := u_end (utf8_scan y) |}
  | UTrunc r => {| u_text := u_text (utf8_scan x) ++ u_text (utf8_scan (r ++ y));
                u_pos := u_pos (utf8_scan x) + u_pos (utf8_scan (r ++ y));
                u_end := u_end (utf8_scan (r ++ y)) |}
  | UBad _ => utf8_scan x
  end.
Proof.
  destruct (utf8_scan_sound (length x) x (le_n _)) as (e & rest & E & He & Hp & Hend).
  destruct (u_end (utf8_scan x)) eqn:Ee.
  - subst rest. rewrite app_nil_r in E. subst e.
    rewrite (utf8_scan_encode _ _ y He). now rewrite Hp.
  - destruct Hend as (-> & _). rewrite E at 1. rewrite <- app_assoc.
    rewrite (utf8_scan_encode _ _ (rest ++ y) He). now rewrite Hp.
  - destruct Hend as (_ & Hbad). rewrite E at 1. rewrite <- app_assoc.
    rewrite (utf8_scan_encode _ _ (rest ++ y) He). rewrite Hbad. cbn [ustop u_text u_pos u_end].
    rewrite <- Ee. rewrite app_nil_r, N.add_0_r, <- Hp. now destruct (utf8_scan x).
Qed.

Lemma utf8_encode_app x y :
  utf8_encode (x ++ y) = let! a := utf8_encode x in let! c := utf8_encode y in Ok (a ++ c).
Proof.
  induction x as [|c x IH]; cbn [app utf8_encode].
  - cbn. destruct (utf8_encode y); reflexivity.
  - rewrite IH. destruct (utf8_encode_char c); [|reflexivity].
    destruct (utf8_encode x); cbn [rbind]; [|reflexivity].
    destruct (utf8_encode y); cbn [rbind]; [|reflexivity]. now rewrite app_assoc.
Qed.

Lemma utf8_encode_ascii t :
  Forall (fun c => c < 128) t -> utf8_encode t = Ok (map n2b t).
Proof.
  induction 1 as [|c t H _ IH]; [reflexivity|].
  cbn [utf8_encode map]. unfold utf8_encode_char.
  destruct (N.ltb_spec c 128); [|lia]. now rewrite IH.
Qed.

(* the reasons for ill-formed sequences *)
Lemma utf8_scan_reasons : forall n x, (length x <= n)%nat ->
  match u_end (utf8_scan x) with UBad why => why = invalid_start \/ why = invalid_cont | _ => True end.
Proof.
  induction n as [|n IH]; intros x Hx.
  { destruct x; [exact I|simpl in Hx; lia]. }
  destruct x as [|c0 r0]; [exact I|]. cbn [utf8_scan length] in *.
  repeat match goal with
  | |- context [if ?c then _ else _] => destruct c
  | |- context [match ?r with [] => _ | _ :: _ => _ end] => destruct r; cbn [length] in *
  end; cbn [ustop ucons u_end]; auto; apply IH; lia.
Qed.
