(* Parsing the Authorization header, and checking credentials. *)
From Verif Require Import Base.Prelude Base.PreludeFacts Base.Utf8 Base.Utf8Facts Base.Base64 Model.Datastructures Model.Headers Model.Server
  Model.LegacyHandshake Model.Auth Spec.Utf8Spec Spec.Rfc7230 Spec.Multimap Spec.BasicAuth
  Proofs.Utf8SpecFacts Proofs.MultimapFacts Proofs.HeadersFacts Proofs.KeyFacts.
Local Open Scope N_scope.

Lemma token68_char_iff c : is_token68_char c = true <-> token68_char c.
Proof.
  unfold is_token68_char, token68_char. rewrite !orb_true_iff, !andb_true_iff, !N.leb_le, existsb_exists.
  assert (H : (exists x, In x (s "-._~+/") /\ (c =? x) = true) <-> In c (s "-._~+/")).
  { split; [intros (x & I & E); apply N.eqb_eq in E; now subst|]. intros I. exists c. now rewrite N.eqb_refl. }
  rewrite H. tauto.
Qed.
Lemma token68_ascii x : token68 x -> Forall (fun c => c < 128) x.
Proof.
  intros (y & n & -> & _ & F). apply Forall_app. split.
  - revert F. apply Forall_impl. intros c [H|[H|[H|H]]]; try lia. vm_compute in H. repeat (destruct H as [<-|H]; [lia|]). destruct H.
  - apply Forall_forall. intros c H. apply repeat_spec in H. lia.
Qed.

Lemma token68_view header name rest :
  match parse_token68 header name rest with
  | Ok (x, r) => (r = [] -> token68 x /\ rest = x) /\ (r <> [] -> ~ token68 rest)
  | Raise e => is_invalid_header e = true /\ ~ token68 rest
  end.
Proof.
  unfold parse_token68. destruct (span is_token68_char rest) as [x r] eqn:Sp. apply span_view in Sp as (-> & F & T).
  assert (U : forall y n, x ++ r = y ++ repeat 61 n -> Forall token68_char y -> y = x /\ r = repeat 61 n).
  { assert (P : forall y n, Forall (fun c => is_token68_char c = true) y -> span is_token68_char (y ++ repeat 61 n) = (y, repeat 61 n)).
    { intros y n Fy. apply span_exact; [exact Fy|]. destruct n; [exact Logic.I|reflexivity]. }
    intros y n E Fy. assert (P1 := P y n ltac:(revert Fy; apply Forall_impl; intros; now apply token68_char_iff)).
    rewrite <- E, (span_exact is_token68_char x r F T) in P1. injection P1 as <- ->. auto. }
  destruct x as [|c x].
  - split; [reflexivity|]. intros (y & n & E & Ny & Fy). destruct (U y n E Fy) as [-> _]. now apply Ny.
  - destruct (span (N.eqb 61) r) as [y r'] eqn:Sr. apply span_view in Sr as (-> & Fe & Te). split.
    + intros ->. rewrite app_nil_r in *. split; [|reflexivity]. exists (c :: x), (length y).
      split; [|split; [discriminate|revert F; apply Forall_impl; intros; now apply token68_char_iff]].
      f_equal. clear -Fe. induction Fe as [|a y E _ IH]; [reflexivity|]. apply N.eqb_eq in E. subst a. cbn [length repeat]. now f_equal.
    + intros Nr (z & n & E & Nz & Fz). destruct (U z n E Fz) as [_ E']. apply Nr.
      assert (D : forall m (a b' : str), a ++ b' = repeat 61 m -> match b' with [] => True | d :: _ => (61 =? d) = false end -> b' = []).
      { intros m a b' E1 H. destruct b' as [|d b']; [reflexivity|]. exfalso. assert (I : In d (repeat 61 m)) by (rewrite <- E1; apply in_or_app; right; now left).
        apply repeat_spec in I. subst d. discriminate. }
      apply (D n y r' E' Te).
Qed.

Lemma split_colon_view x : 
  match split_colon x with
  | Some (u, p) => x = u ++ s ":" ++ p /\ ~ In 58 u
  | None => ~ In 58 x
  end.
Proof.
  induction x as [|c x IH]; cbn [split_colon]; [auto|]. destruct (N.eqb_spec c 58) as [->|N]; [split; [reflexivity|auto]|].
  destruct (split_colon x) as [[u p]|].
  - destruct IH as [-> IH]. split; [reflexivity|]. intros [H|H]; auto.
  - intros [H|H]; auto.
Qed.

Lemma lower_space x : lower x = s "basic" -> ~ In 32 x.
Proof.
  intros H I. apply (in_map lower_char) in I. fold (lower x) in I. rewrite H in I. vm_compute in I. repeat (destruct I as [I|I]; [discriminate|]). destruct I.
Qed.
Lemma header_view h :
  match parse_authorization_basic h with
  | Ok (u, p) => basic_credentials h u p
  | Raise e =>
      (is_invalid_header e = true /\ (forall u p, ~ basic_credentials h u p) /\ ~ exists data, basic_header h data /\ ~ valid_utf8 data) \/
      (is_invalid_header e = false /\ (exists reason pos, e = UnicodeDecodeError reason pos) /\ exists data, basic_header h data /\ ~ valid_utf8 data)
  end.
Proof.
  assert (Bad : forall e, is_invalid_header e = true -> (forall d, ~ basic_header h d) ->
    (is_invalid_header e = true /\ (forall u p, ~ basic_credentials h u p) /\ ~ exists data, basic_header h data /\ ~ valid_utf8 data) \/
      (is_invalid_header e = false /\ (exists reason pos, e = UnicodeDecodeError reason pos) /\ exists data, basic_header h data /\ ~ valid_utf8 data)).
  { intros e He N. left. split; [exact He|]. split; [intros u p (d & H & _); now apply (N d)|]. intros (d & H & _). now apply (N d). }
  unfold parse_authorization_basic. cbn zeta. pose proof (parse_token_view h (s "Authorization") h) as V.
  destruct (parse_token h (s "Authorization") h) as [[scheme rest]|e]; cbn [rbind].
  2: { destruct V as [-> V]. apply Bad; [reflexivity|]. intros d (sc & x & E & _ & T & _). rewrite E in V. destruct (token_start sc ([32] ++ x) T) as (c & t & E' & H).
       rewrite E' in V. cbn in V. congruence. }
  destruct V as (E & Ts & Nt).
  assert (U : forall sc x, h = sc ++ [32] ++ x -> token sc -> sc = scheme /\ rest = 32 :: x).
  { intros sc x E' T. pose proof (parse_token_exact h (s "Authorization") sc ([32] ++ x) T eq_refl) as P1.
    pose proof (parse_token_exact h (s "Authorization") scheme rest Ts Nt) as P2. rewrite <- E' in P1. rewrite <- E in P2. rewrite P1 in P2.
    apply ok_inj, pair_equal_spec in P2 as [<- <-]. auto. }
  destruct (str_eqb (lower scheme) (s "basic")) eqn:Sb; cbn [negb].
  2: { apply Bad; [reflexivity|]. intros d (sc & x & E' & L & T & _). destruct (U sc x E' T) as [-> _]. apply str_eqb_eq in L. congruence. }
  apply str_eqb_eq in Sb. destruct (peek_is 32 rest) eqn:Pk; cbn [negb].
  2: { apply Bad; [reflexivity|]. intros d (sc & x & E' & _ & T & _). destruct (U sc x E' T) as [_ ->]. discriminate. }
  assert (R : exists x, rest = 32 :: x). { destruct rest as [|c x]; [discriminate|]. cbn [peek_is] in Pk. apply N.eqb_eq in Pk. subst c. eauto. }
  destruct R as [x ->]. cbn [tl].
  assert (U2 : forall sc y, h = sc ++ [32] ++ y -> token sc -> y = x). { intros sc y E' T. destruct (U sc y E' T) as [_ H]. now injection H as <-. }
  pose proof (token68_view h (s "Authorization") x) as W. destruct (parse_token68 h (s "Authorization") x) as [[cr r]|e]; cbn [rbind].
  2: { destruct W as [He W]. apply Bad; [exact He|]. intros d (sc & y & E' & _ & T & T68 & _). apply W. now rewrite <- (U2 sc y E' T). }
  destruct r as [|c r]; cbn [parse_end rbind].
  2: { apply Bad; [reflexivity|]. intros d (sc & y & E' & _ & T & T68 & _). apply W; [discriminate|]. now rewrite <- (U2 sc y E' T). }
  destruct W as [W _]. destruct (W eq_refl) as [T68 ->]. clear W.
  rewrite (utf8_encode_ascii cr (token68_ascii cr T68)). cbn [rbind].
  destruct (b64decode (map n2b cr)) as [data|e] eqn:Db.
  2: { pose proof (a2b_error _ _ _ _ _ Db) as ->. apply Bad; [reflexivity|]. intros d (sc & y & E' & _ & T & _ & D). rewrite (U2 sc y E' T) in D. congruence. }
  assert (Bh : basic_header h data) by (exists scheme, cr; auto).
  assert (Bu : forall d, basic_header h d -> d = data). { intros d (sc & y & E' & _ & T & _ & D). rewrite (U2 sc y E' T) in D. congruence. }
  destruct (utf8_decode data) as [t|e] eqn:Ud; cbn [rbind].
  2: { destruct (utf8_decode_fails _ _ Ud) as (N & reason & pos & ->). right. split; [reflexivity|]. split; [eauto|]. eauto. }
  apply utf8_decode_spec in Ud. pose proof (split_colon_view t) as Sc. destruct (split_colon t) as [[u p]|].
  - destruct Sc as [-> Nu]. exists data. auto.
  - left. split; [reflexivity|]. split.
    + intros u p (d & Hd & Ht & _). rewrite (Bu d Hd) in Ht. assert (Et : t = u ++ s ":" ++ p).
      { apply utf8_decode_spec in Ud, Ht. congruence. }
      apply Sc. rewrite Et. apply in_or_app. right. now left.
    + intros (d & Hd & Nd). apply Nd. rewrite (Bu d Hd). now exists t.
Qed.
Lemma credentials_fun h u p u' p' : basic_credentials h u p -> basic_credentials h u' p' -> u = u' /\ p = p'.
Proof.
  assert (G : forall u p, basic_credentials h u p -> parse_authorization_basic h = Ok (u, p)).
  { clear. intros u p B. pose proof (header_view h) as V. destruct (parse_authorization_basic h) as [[u' p']|e].
    - (* both decode to the same text *)
      destruct B as (d & (sc & x & E & L & T & T68 & D) & Ht & Nu), V as (d' & (sc' & x' & E' & L' & T' & T68' & D') & Ht' & Nu').
      assert (P1 := parse_token_exact h [] sc ([32] ++ x) T eq_refl). assert (P2 := parse_token_exact h [] sc' ([32] ++ x') T' eq_refl).
      rewrite <- E in P1. rewrite <- E' in P2. rewrite P1 in P2. apply ok_inj, pair_equal_spec in P2 as [_ P2]. injection P2 as <-.
      rewrite D in D'. apply ok_inj in D'. subst d'. apply utf8_decode_spec in Ht, Ht'. rewrite Ht in Ht'. apply ok_inj in Ht'.
      clear -Ht' Nu Nu'. revert u' Ht' Nu'. induction u as [|c u IH]; intros [|c' u'] H N1; cbn in H.
      + now injection H as <-.
      + injection H as <- _. exfalso. apply N1. now left.
      + injection H as -> _. exfalso. apply Nu. now left.
      + injection H as <- H. assert (IH' := IH (fun Hx => Nu (or_intror Hx)) u' H (fun Hx => N1 (or_intror Hx))). apply ok_inj, pair_equal_spec in IH' as [<- <-]. reflexivity.
    - exfalso. destruct V as [(_ & V & _)|(_ & _ & d' & Hd & Nd)]; [now apply (V u p)|].
      destruct B as (d & (sc & x & E & L & T & T68 & D) & Ht & Nu), Hd as (sc' & x' & E' & L' & T' & T68' & D').
      assert (P1 := parse_token_exact h [] sc ([32] ++ x) T eq_refl). assert (P2 := parse_token_exact h [] sc' ([32] ++ x') T' eq_refl).
      rewrite <- E in P1. rewrite <- E' in P2. rewrite P1 in P2. apply ok_inj, pair_equal_spec in P2 as [_ P2]. injection P2 as <-.
      rewrite D in D'. apply ok_inj in D'. subst d'. apply Nd. now exists (u ++ s ":" ++ p). }
  intros B B'. apply G in B, B'. rewrite B in B'. now apply ok_inj, pair_equal_spec in B'.
Qed.

(* ---- credentials ---- *)

Lemma dict_get_none cs u : dict_get cs u = None <-> ~ In u (map fst cs).
Proof.
  induction cs as [|[k v] cs IH]; cbn [dict_get map fst In]; [tauto|]. destruct (dict_get cs u) as [q|].
  - split; [discriminate|]. intros H. exfalso. assert (N : ~ In u (map fst cs)) by tauto. apply IH in N. discriminate.
  - destruct (str_eqb k u) eqn:Ek.
    + apply str_eqb_eq in Ek. split; [discriminate|tauto].
    + split; [|tauto]. intros _ [->|H]; [|now apply IH]. now rewrite (proj2 (str_eqb_eq u u) eq_refl) in Ek.
Qed.
Lemma dict_get_iff cs u p : dict_get cs u = Some p <-> configured cs u p.
Proof.
  induction cs as [|[k v] cs IH]; cbn [dict_get].
  - split; [discriminate|]. intros (pre & post & E & _). destruct pre; discriminate.
  - pose proof (dict_get_none cs u) as No. destruct (dict_get cs u) as [q|].
    + rewrite IH. split.
      * intros (pre & post & -> & N). exists ((k, v) :: pre), post. auto.
      * intros ([|x pre] & post & E & N); injection E as E1 E2; [|exists pre, post; auto].
        subst. apply No in N. discriminate.
    + destruct (str_eqb k u) eqn:Ek.
      * apply str_eqb_eq in Ek. subst k. split.
        -- intros H. injection H as ->. exists [], cs. split; [reflexivity|]. now apply No.
        -- intros ([|x pre] & post & E & N); injection E as E1 E2; [congruence|]. exfalso. apply No; [reflexivity|].
           subst cs. rewrite map_app. apply in_or_app. right. now left.
      * split; [discriminate|]. intros ([|x pre] & post & E & N); injection E as E1 E2; exfalso.
        -- subst k. now rewrite (proj2 (str_eqb_eq u u) eq_refl) in Ek.
        -- apply No; [reflexivity|]. subst cs. rewrite map_app. apply in_or_app. right. now left.
Qed.
Lemma all_pairs cs : all_credentials (map pair_of cs) = Some cs.
Proof. induction cs as [|[u p] cs IH]; [reflexivity|]. cbn [map all_credentials pair_of fst snd as_credentials py_items]. now rewrite IH. Qed.
Lemma hard_coded_iff v cs : gives v cs -> exists f, hard_coded v = Ok f /\ forall u p, f u p = true <-> configured cs u p.
Proof.
  assert (D : forall u p, match dict_get cs u with Some q => str_eqb q p | None => false end = true <-> configured cs u p).
  { intros u p. rewrite <- dict_get_iff. destruct (dict_get cs u) as [q|]; [|split; discriminate]. rewrite str_eqb_eq. split; congruence. }
  assert (L : forall l, l = map pair_of cs -> match l with [PyStr u; PyStr p] => Some (u, p) | _ => None end = None).
  { intros l ->. destruct cs as [|[u p] [|[u' p'] [|c cs]]]; reflexivity. }
  intros [([u0 p0] & -> & ->)|[->| ->]].
  - unfold hard_coded. cbn [pair_of fst snd as_credentials py_items]. eexists. split; [reflexivity|]. intros u p. cbn [equals_pair pair_of fst snd].
    rewrite andb_true_iff, !str_eqb_eq. split.
    + intros [-> ->]. exists [], []. auto.
    + intros ([|x pre] & post & E & _); injection E as E1 E2; [subst; auto|destruct pre; discriminate].
  - unfold hard_coded, as_credentials. cbn [py_items]. rewrite (L _ eq_refl), all_pairs. eexists. split; [reflexivity|exact D].
  - unfold hard_coded, as_credentials. cbn [py_items]. rewrite (L _ eq_refl), all_pairs. eexists. split; [reflexivity|exact D].
Qed.
