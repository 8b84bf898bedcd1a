(* The parsers of headers recognize the grammars. *)
From Verif Require Import Base.Prelude Base.PreludeFacts Model.Http11 Model.Headers Spec.Rfc7230.
Local Open Scope N_scope.

Lemma is_tchar_iff c : is_tchar c = true <-> tchar c.
Proof.
  unfold is_tchar, tchar. rewrite !orb_true_iff, !andb_true_iff, existsb_exists.
  cbn [s String.list_ascii_of_string map In]. vm_compute Ascii.N_of_ascii.
  split.
  - intros [[[H|H]|H]|(x & H & E)]; [lia|lia|lia|]. apply N.eqb_eq in E. subst. tauto.
  - intros [H|[H|[H|H]]]; [left; left; left; lia|left; left; right; lia|left; right; lia|right].
    exists c. rewrite N.eqb_refl. tauto.
Qed.

Local Notation commas := (flat_map (fun w : str => 44%N :: w)).

Definition sp (c : N) : bool := (c =? 9) || (c =? 32).
Lemma sp_iff c : sp c = true <-> c = 32 \/ c = 9.
Proof. unfold sp. lia. Qed.

Lemma tchar_facts c : is_tchar c = true -> sp c = false /\ c <> 44 /\ c <> 59 /\ c <> 61 /\ c <> 34 /\ c <> 47.
Proof.
  intros H. apply is_tchar_iff in H. unfold tchar in H.
  cbn [s String.list_ascii_of_string map In] in H. vm_compute Ascii.N_of_ascii in H.
  unfold sp. lia.
Qed.

(* ---- whitespace ---- *)

Definition no_sp (r : str) : Prop := match r with [] => True | c :: _ => sp c = false end.

Lemma parse_OWS_view r : exists w, ows w /\ r = w ++ parse_OWS r /\ no_sp (parse_OWS r).
Proof.
  induction r as [|c r (w & W & E & N)]; cbn [parse_OWS]; [exists []; repeat split; constructor|].
  fold (sp c). destruct (sp c) eqn:S.
  - exists (c :: w). split; [constructor; [now apply sp_iff|exact W]|]. split; [cbn [app]; congruence|exact N].
  - exists []. split; [constructor|]. split; [reflexivity|exact S].
Qed.
Lemma parse_OWS_skip w r : ows w -> no_sp r -> parse_OWS (w ++ r) = r.
Proof.
  intros W N. induction W as [|c w H W IH]; cbn [app parse_OWS].
  - destruct r as [|c r]; [reflexivity|]. cbn [parse_OWS]. fold (sp c). cbn in N. now rewrite N.
  - fold (sp c). apply sp_iff in H. now rewrite H.
Qed.
Lemma parse_OWS_no_sp r : no_sp r -> parse_OWS r = r.
Proof. apply (parse_OWS_skip []). constructor. Qed.
Lemma parse_OWS_length r : (length (parse_OWS r) <= length r)%nat.
Proof. destruct (parse_OWS_view r) as (w & _ & E & _). rewrite E at 2. rewrite app_length. lia. Qed.
Lemma ows_app w w' : ows w -> ows w' -> ows (w ++ w').
Proof. intros. apply Forall_app. auto. Qed.
Lemma parse_OWS_idem w r : ows w -> parse_OWS (w ++ r) = parse_OWS r.
Proof.
  intros W. destruct (parse_OWS_view r) as (w' & W' & E & N). rewrite E at 1. rewrite app_assoc.
  now apply parse_OWS_skip; [apply ows_app|].
Qed.

(* ---- tokens ---- *)

Lemma span_view class r x y : span class r = (x, y) ->
  r = x ++ y /\ Forall (fun c => class c = true) x /\ match y with [] => True | c :: _ => class c = false end.
Proof.
  revert x y. induction r as [|c r IH]; cbn [span]; intros x y.
  - intros [= <- <-]. repeat split. constructor.
  - destruct (class c) eqn:Q.
    + destruct (span class r) as [x' y'] eqn:Sp. intros [= <- <-]. destruct (IH _ _ eq_refl) as (-> & F & T).
      repeat split; auto.
    + intros [= <- <-]. repeat split; [constructor|exact Q].
Qed.
Lemma span_exact class x y : Forall (fun c => class c = true) x ->
  match y with [] => True | c :: _ => class c = false end -> span class (x ++ y) = (x, y).
Proof.
  intros F T. induction F as [|c x H F IH]; cbn [app span].
  - destruct y as [|c y]; [reflexivity|]. cbn [span]. now rewrite T.
  - now rewrite H, IH.
Qed.

Lemma token_class x : token x <-> x <> [] /\ Forall (fun c => is_tchar c = true) x.
Proof.
  unfold token. split; intros [N F]; (split; [exact N|]); revert F; apply Forall_impl; intros c; apply is_tchar_iff.
Qed.

Definition no_tchar (r : str) : Prop := match r with [] => True | c :: _ => is_tchar c = false end.

Section Parse.
Context (header header_name : str).

Lemma parse_token_view r : 
  match parse_token header header_name r with
  | Ok (x, y) => r = x ++ y /\ token x /\ no_tchar y
  | Raise e => e = bad_format header_name (s "expected token") header r /\ no_tchar r
  end.
Proof.
  unfold parse_token. destruct (span is_tchar r) as [x y] eqn:Sp. apply span_view in Sp as (-> & F & T).
  destruct x as [|c x]; [split; [reflexivity|exact T]|]. split; [reflexivity|]. split; [apply token_class; split; [discriminate|exact F]|exact T].
Qed.
Lemma parse_token_exact x y : token x -> no_tchar y -> parse_token header header_name (x ++ y) = Ok (x, y).
Proof.
  intros T N. apply token_class in T as [Ne F]. unfold parse_token. rewrite (span_exact is_tchar x y F N).
  destruct x; [contradiction|reflexivity].
Qed.

Lemma token_start x r : token x -> exists c t, x ++ r = c :: t /\ is_tchar c = true.
Proof.
  intros T. apply token_class in T as [Ne F]. destruct F as [|c x H F]; [contradiction|]. exists c, (x ++ r). auto.
Qed.
Lemma token_no_sp x r : token x -> no_sp (x ++ r).
Proof. intros T. destruct (token_start x r T) as (c & t & -> & H). now apply tchar_facts in H. Qed.

(* ---- lists ---- *)

(* what can follow an item *)
Definition follows (r : str) : Prop := match r with [] => True | c :: _ => c = 44 end.

Record recognizes {A} (parse_item : str -> result (A * str)) (item : str -> A -> Prop) : Prop := {
  rec_sound : forall r a r', parse_item r = Ok (a, r') ->
    exists x w, r = x ++ w ++ r' /\ item x a /\ ows w;
  rec_complete : forall x a w r, item x a -> ows w -> follows r ->
    exists w', ows w' /\ parse_item (x ++ w ++ r) = Ok (a, w' ++ r);
  rec_start : forall x a, item x a -> exists c t, x = c :: t /\ is_tchar c = true }.

Lemma skip_commas_view fuel : forall r, (length r <= fuel)%nat ->
  exists ws, Forall ows ws /\ r = commas ws ++ skip_commas fuel r /\
    match skip_commas fuel r with [] => True | c :: _ => c <> 44 /\ (r = skip_commas fuel r \/ sp c = false) end.
Proof.
  induction fuel as [|f IH]; intros r Hl; cbn [skip_commas].
  - destruct r; [|simpl in Hl; lia]. exists []. repeat split; constructor.
  - destruct r as [|c r]; [exists []; repeat split; constructor|].
    destruct (N.eqb_spec c 44) as [->|Ne].
    + destruct (parse_OWS_view r) as (w & W & E & N).
      destruct (IH (parse_OWS r)) as (ws & F & Q & T).
      { pose proof (parse_OWS_length r). simpl in Hl. lia. }
      exists (w :: ws). split; [constructor; auto|]. split.
      * cbn [flat_map app]. rewrite <- app_assoc, <- Q. now rewrite <- E.
      * destruct (skip_commas f (parse_OWS r)) as [|c t] eqn:Sk; [exact I|]. destruct T as [T1 T2]. split; [exact T1|].
        right. destruct T2 as [T2|T2]; [|exact T2]. rewrite T2 in N. exact N.
    + exists []. split; [constructor|]. split; [reflexivity|]. auto.
Qed.

Lemma skip_commas_exact fuel : forall w r, (length (w ++ r) < fuel)%nat -> ows w ->
  skip_commas fuel (44 :: w ++ r) = skip_commas (fuel - 1) (parse_OWS r).
Proof.
  intros w r Hl W. destruct fuel as [|f]; [lia|]. cbn [skip_commas]. change (44 =? 44) with true. cbn iota.
  rewrite (parse_OWS_idem w r W). f_equal. lia.
Qed.

Lemma skip_commas_stop fuel r : match r with [] => True | c :: _ => c <> 44 end -> skip_commas fuel r = r.
Proof.
  destruct fuel; [reflexivity|]. destruct r as [|c r]; [reflexivity|]. intros N. cbn [skip_commas].
  destruct (N.eqb_spec c 44); [contradiction|reflexivity].
Qed.

Lemma skip_commas_fuel : forall r f g, (length r <= f)%nat -> (length r <= g)%nat -> skip_commas f r = skip_commas g r.
Proof.
  intros r f. revert r. induction f as [|f IH]; intros r g Hf Hg.
  - destruct r; [|simpl in Hf; lia]. destruct g; reflexivity.
  - destruct r as [|c r]; [destruct g; reflexivity|]. destruct g as [|g]; [simpl in Hg; lia|]. cbn [skip_commas].
    destruct (c =? 44); [|reflexivity]. pose proof (parse_OWS_length r). simpl in Hf, Hg. apply IH; lia.
Qed.

Context {A : Type} (parse_item : str -> result (A * str)) (item : str -> A -> Prop).
Context (Rec : recognizes parse_item item).

(* commas followed by an item *)
Lemma more_then_item ws : forall w x a r l, ws <> [] -> ows w -> Forall ows ws -> item x a -> more item r l ->
  more item (w ++ commas ws ++ x ++ r) (a :: l).
Proof.
  induction ws as [|v ws IH]; intros w x a r l Ne W F Ix M; [contradiction|]. inversion F; subst. cbn [flat_map].
  destruct ws as [|v' ws].
  - cbn [flat_map]. rewrite app_nil_r. change (w ++ (44 :: v) ++ x ++ r) with (w ++ s "," ++ v ++ x ++ r).
    now constructor.
  - rewrite <- app_assoc. change (w ++ (44 :: v) ++ ?t) with (w ++ s "," ++ (v ++ t)). apply more_empty; [exact W|].
    apply IH; auto. discriminate.
Qed.
(* commas, then the end *)
Lemma more_then_end ws : forall w, ws <> [] -> ows w -> Forall ows ws ->
  exists m w', ows w' /\ w ++ commas ws = m ++ w' /\ more item m [].
Proof.
  induction ws as [|v ws IH]; intros w Ne W F; [contradiction|]. inversion F; subst. cbn [flat_map].
  destruct ws as [|v' ws].
  - exists (w ++ s "," ++ []), v. split; [assumption|]. split; [rewrite !app_nil_r, <- app_assoc; reflexivity|].
    apply more_empty; [exact W|constructor].
  - destruct (IH v) as (m & w' & W' & Q & M); auto; [discriminate|].
    exists (w ++ s "," ++ m), w'. split; [exact W'|]. split; [|now apply more_empty].
    change (w ++ (44 :: v) ++ ?t) with (w ++ s "," ++ (v ++ t)). rewrite Q, <- !app_assoc. reflexivity.
Qed.

Lemma loop_sound fuel : forall r l, parse_list_loop header header_name parse_item fuel r = Ok l ->
  exists x a m w t, r = x ++ m ++ w /\ item x a /\ ows w /\ l = a :: t /\ more item m t.
Proof.
  induction fuel as [|f IH]; intros r l; cbn [parse_list_loop]; [discriminate|].
  destruct (parse_item r) as [[a r1]|e] eqn:P; cbn [rbind]; [|discriminate].
  apply (rec_sound _ _ Rec) in P as (x & w & -> & Ix & W).
  destruct (parse_OWS_view r1) as (w1 & W1 & E1 & N1). rewrite E1. rewrite E1 in N1 |- *.
  rewrite <- E1 in N1 |- *. rewrite (parse_OWS_idem w1 _ W1), (parse_OWS_no_sp _ N1).
  destruct (parse_OWS r1) as [|c r2] eqn:Q.
  - intros [= <-]. exists x, a, [], (w ++ w1), []. rewrite app_nil_r. split; [reflexivity|].
    split; [exact Ix|]. split; [now apply ows_app|]. split; [reflexivity|constructor].
  - cbn [peek_is]. destruct (N.eqb_spec c 44) as [->|Nc]; [|discriminate].
    destruct (skip_commas_view (length (44 :: r2)) (44 :: r2) (le_n _)) as (ws & F & Es & T).
    assert (Nws : ws <> []).
    { intros ->. cbn [flat_map app] in Es. rewrite <- Es in T. now destruct T. }
    destruct (skip_commas (length (44 :: r2)) (44 :: r2)) as [|c3 r3] eqn:Sk.
    + intros [= <-]. rewrite app_nil_r in Es.
      destruct (more_then_end ws (w ++ w1) Nws (ows_app _ _ W W1) F) as (m & w' & W' & Q' & M).
      exists x, a, m, w', []. split; [rewrite Es, <- Q', <- !app_assoc; reflexivity|]. auto.
    + destruct (parse_list_loop header header_name parse_item f (c3 :: r3)) as [l'|e] eqn:L; cbn [rbind]; [|discriminate].
      intros [= <-]. destruct (IH _ _ L) as (x' & a' & m' & w' & t' & Q' & Ix' & W' & -> & M').
      exists x, a, ((w ++ w1) ++ commas ws ++ x' ++ m'), w', (a' :: t').
      split; [|split; [exact Ix|split; [exact W'|split; [reflexivity|]]]].
      * rewrite Es, Q', <- !app_assoc. reflexivity.
      * apply more_then_item; auto. now apply ows_app.
Qed.

Theorem parse_list_sound l : parse_list header header_name parse_item = Ok l -> field_value item header l.
Proof.
  unfold parse_list. intros H. apply loop_sound in H as (x & a & m & w & t & E & Ix & W & -> & M).
  destruct (skip_commas_view (length header) header (le_n _)) as (ws & F & Es & _).
  exists (commas ws ++ x ++ m), w. split; [rewrite Es, E, <- !app_assoc; reflexivity|]. split; [exact W|].
  clear -F Ix M. induction F as [|v ws V F IH]; cbn [flat_map app]; [now constructor|].
  change (44 :: v) with (s "," ++ v). rewrite <- !app_assoc. now constructor.
Qed.

(* ---- completeness ---- *)

Lemma more_view m l : more item m l ->
  m = [] /\ l = [] \/
  exists v ws, ws <> [] /\ ows v /\ Forall ows ws /\
    (m = v ++ commas ws /\ l = [] \/
     exists x a m' l', m = v ++ commas ws ++ x ++ m' /\ l = a :: l' /\
       item x a /\ more item m' l').
Proof.
  intros M. destruct M as [|v m l V M|v w' x a m l V W' Ix M]; [auto| |].
  - right. revert v V. induction M as [|v m l V M IH|v w' x a m l V W' Ix M IH]; intros u U.
    + exists u, [[]]. split; [discriminate|]. split; [exact U|]. split; [repeat constructor|]. left. auto.
    + destruct (IH v V) as (v1 & ws & Nw & V1 & F & D). exists u, (v1 :: ws).
      split; [discriminate|]. split; [exact U|]. split; [now constructor|].
      destruct D as [(E & ->)|(x & a & m' & l' & E & -> & Ix & M')].
      * left. split; [|reflexivity]. rewrite E. reflexivity.
      * right. exists x, a, m', l'. split; [|auto]. rewrite E. cbn [flat_map]. rewrite <- !app_assoc. reflexivity.
    + exists u, [v; w']. split; [discriminate|]. split; [exact U|]. split; [repeat constructor; assumption|].
      right. exists x, a, m, l. split; [|auto]. cbn [flat_map]. rewrite app_nil_r, <- !app_assoc. reflexivity.
  - right. exists v, [w']. split; [discriminate|]. split; [exact V|]. split; [repeat constructor; assumption|].
    right. exists x, a, m, l. split; [|auto]. cbn [flat_map]. rewrite app_nil_r. reflexivity.
Qed.

Lemma more_length m l : more item m l -> (length l <= length m)%nat.
Proof.
  induction 1 as [|w r l W M IH|w w' x a r l W W' Ix M IH]; cbn [length]; [lia| |];
  rewrite ?app_length; cbn [length]; rewrite ?app_length; simpl; lia.
Qed.

Lemma commas_skipped ws : forall fuel r, Forall ows ws -> (length (commas ws ++ r) <= fuel)%nat ->
  match r with [] => True | c :: _ => sp c = false /\ c <> 44 end ->
  skip_commas fuel (commas ws ++ r) = r.
Proof.
  induction ws as [|w ws IH]; intros fuel r F Hl T; cbn [flat_map app].
  - apply skip_commas_stop. destruct r; tauto.
  - inversion F; subst. cbn [flat_map app] in Hl. rewrite <- app_assoc in Hl |- *.
    rewrite skip_commas_exact; [|simpl in Hl; lia|assumption].
    rewrite parse_OWS_no_sp.
    + apply IH; auto. simpl in Hl. rewrite app_length in Hl. lia.
    + destruct ws; cbn [flat_map app]; [destruct r; cbn; tauto|]. reflexivity.
Qed.

Lemma loop_complete : forall l fuel x a m w, (length l < fuel)%nat -> item x a -> more item m l -> ows w ->
  parse_list_loop header header_name parse_item fuel (x ++ m ++ w) = Ok (a :: l).
Proof.
  induction l as [l IH] using (induction_ltof1 _ (@length A)). unfold ltof in IH.
  intros fuel x a m w Hf Ix M W. destruct fuel as [|f]; [lia|]. cbn [parse_list_loop].
  assert (Item : forall r v, ows v -> follows r -> parse_item (x ++ v ++ r) = Ok (a, snd (match parse_item (x ++ v ++ r) with Ok p => p | Raise _ => (a, []) end))
     /\ parse_OWS (snd (match parse_item (x ++ v ++ r) with Ok p => p | Raise _ => (a, []) end)) = r).
  { intros r v V Fr. destruct (rec_complete _ _ Rec x a v r Ix V Fr) as (w' & W' & ->). cbn [snd]. split; [reflexivity|].
    apply parse_OWS_skip; [exact W'|]. destruct r as [|c r]; [exact I|]. cbn in Fr |- *. now subst. }
  destruct (more_view m l M) as [(-> & ->)|(v & ws & Nw & V & F & [(-> & ->)|(x' & a' & m' & l' & -> & -> & Ix' & M')])].
  - destruct (Item [] w W I) as [P Q]. rewrite app_nil_r in P, Q. cbn [app]. rewrite P. cbn [rbind]. now rewrite Q.
  - destruct ws as [|w1 ws]; [contradiction|]. cbn [flat_map app] in *.
    set (r := 44 :: (w1 ++ commas ws) ++ w).
    replace (x ++ (v ++ 44 :: w1 ++ commas ws) ++ w) with (x ++ v ++ r)
      by (unfold r; rewrite <- !app_assoc; cbn [app]; rewrite <- ?app_assoc; reflexivity).
    destruct (Item r v V eq_refl) as [P Q]. rewrite P. cbn [rbind]. rewrite Q. unfold r at 1. cbn [peek_is].
    change (44 =? 44) with true. cbn iota.
    replace (skip_commas (length r) r) with (@nil N); [reflexivity|]. symmetry.
    assert (E : r = commas (removelast (w1 :: ws) ++ [last (w1 :: ws) [] ++ w])).
    { unfold r. destruct (app_removelast_last [] Nw) as []. 
      rewrite flat_map_app. cbn [flat_map]. rewrite app_nil_r.
      replace (44 :: (w1 ++ commas ws) ++ w) with (commas (w1 :: ws) ++ w) by (cbn [flat_map app]; reflexivity).
      rewrite (app_removelast_last [] Nw) at 1. rewrite flat_map_app. cbn [flat_map]. rewrite app_nil_r, <- !app_assoc. reflexivity. }
    rewrite E. rewrite <- (app_nil_r (flat_map _ _)). apply commas_skipped; [|rewrite ?app_nil_r; lia|exact I].
    rewrite (app_removelast_last [] Nw) in F. apply Forall_app in F as [F1 F2]. apply Forall_app. split; [exact F1|].
    inversion F2; subst. constructor; [now apply ows_app|constructor].
  - destruct ws as [|w1 ws]; [contradiction|]. cbn [flat_map app] in *.
    set (r := commas (w1 :: ws) ++ x' ++ m' ++ w).
    replace (x ++ (v ++ 44 :: (w1 ++ commas ws) ++ x' ++ m') ++ w) with (x ++ v ++ r)
      by (unfold r; cbn [flat_map app]; rewrite <- !app_assoc; cbn [app]; rewrite <- ?app_assoc; reflexivity).
    destruct (Item r v V eq_refl) as [P Q]. rewrite P. cbn [rbind]. rewrite Q.
    assert (R : exists t, r = 44 :: t) by (unfold r; cbn [flat_map app]; eauto). destruct R as [t R].
    rewrite R. cbn zeta. cbn [peek_is]. change (44 =? 44) with true. cbn iota.
    destruct (rec_start _ _ Rec x' a' Ix') as (c & t' & -> & Hc).
    replace (skip_commas (length (44 :: t)) (44 :: t)) with ((c :: t') ++ m' ++ w).
    + cbn [app]. change (c :: t' ++ m' ++ w) with ((c :: t') ++ m' ++ w). rewrite (IH l') with (a := a'); cbn [length]; auto; simpl in Hf; try lia.
    + symmetry. rewrite <- R. unfold r. apply commas_skipped; [exact F|apply le_n|]. cbn [app]. apply tchar_facts in Hc. tauto.
Qed.

Theorem parse_list_complete l : field_value item header l -> parse_list header header_name parse_item = Ok l.
Proof.
  intros (h & w & E & W & L). unfold parse_list.
  assert (D : exists ws x a m t, h = commas ws ++ x ++ m /\ Forall ows ws /\ item x a /\ more item m t /\ l = a :: t).
  { clear E. induction L as [v r l V L IH|x a r l Ix M].
    - destruct IH as (ws & x & a & m & t & -> & F & Ix & M & ->). exists (v :: ws), x, a, m, t. split; [|auto].
      cbn [flat_map app]. rewrite <- app_assoc. reflexivity.
    - exists [], x, a, r, l. auto. }
  destruct D as (ws & x & a & m & t & -> & F & Ix & M & ->). rewrite <- !app_assoc in E.
  destruct (rec_start _ _ Rec x a Ix) as (c & t' & Ec & Hc).
  assert (Q : skip_commas (length header) header = x ++ m ++ w).
  { rewrite E. apply commas_skipped; [exact F|apply le_n|]. subst x. cbn [app]. apply tchar_facts in Hc. tauto. }
  rewrite Q.
  apply loop_complete; auto. pose proof (more_length _ _ M). rewrite E, !app_length. lia.
Qed.
End Parse.

(* ---- errors ---- *)

Definition format_error (header header_name : str) (e : exn) : Prop :=
  exists error pos, Forall (fun c => c < 128) error /\ e = InvalidHeaderFormat header_name error header pos.
Lemma format_error_bad header header_name error rest : Forall (fun c => c < 128) error ->
  format_error header header_name (bad_format header_name error header rest).
Proof. unfold format_error, bad_format. eauto. Qed.

Section Errors.
Context (header header_name : str) {A : Type} (parse_item : str -> result (A * str)).
Context (Shrinks : forall r a r', parse_item r = Ok (a, r') -> (length r' < length r)%nat).
Context (Fails : forall r e, parse_item r = Raise e -> format_error header header_name e).

Lemma skip_commas_length fuel : forall r, (length (skip_commas fuel r) <= length r)%nat.
Proof.
  induction fuel as [|f IH]; intros r; cbn [skip_commas]; [lia|]. destruct r as [|c r]; [lia|].
  destruct (c =? 44); [|lia]. pose proof (IH (parse_OWS r)). pose proof (parse_OWS_length r). simpl. lia.
Qed.

Lemma loop_fails fuel : forall r e, (length r < fuel)%nat ->
  parse_list_loop header header_name parse_item fuel r = Raise e -> format_error header header_name e.
Proof.
  induction fuel as [|f IH]; intros r e Hl; [lia|]. cbn [parse_list_loop].
  destruct (parse_item r) as [[a r1]|e1] eqn:P; cbn [rbind].
  - apply Shrinks in P. pose proof (parse_OWS_length r1) as L1. destruct (parse_OWS r1) as [|c r2] eqn:O; [discriminate|].
    destruct (peek_is 44 (c :: r2)) eqn:Pk; [|intros [= <-]; apply format_error_bad; repeat constructor].
    pose proof (skip_commas_length (length (c :: r2)) (c :: r2)) as L2.
    destruct (skip_commas (length (c :: r2)) (c :: r2)) as [|c3 r3] eqn:Sk; [discriminate|].
    destruct (parse_list_loop header header_name parse_item f (c3 :: r3)) as [l|e2] eqn:Lp; cbn [rbind]; [discriminate|].
    intros [= <-]. eapply IH; [|exact Lp]. lia.
  - intros [= <-]. eapply Fails; exact P.
Qed.
Lemma parse_list_fails e : parse_list header header_name parse_item = Raise e -> format_error header header_name e.
Proof.
  apply loop_fails. pose proof (skip_commas_length (length header) header). lia.
Qed.
End Errors.

(* ---- the items ---- *)

Section Items.
Context (header header_name : str).

Lemma follows_no_tchar w r : ows w -> follows r -> no_tchar (w ++ r).
Proof.
  intros W F. destruct W as [|c w H W]; cbn [app].
  - destruct r as [|c r]; [exact I|]. cbn in F |- *. now subst.
  - cbn. destruct (is_tchar c) eqn:T; [|reflexivity]. apply tchar_facts in T. apply sp_iff in H. destruct T. congruence.
Qed.

Lemma token_recognized : recognizes (parse_token header header_name) token_item.
Proof.
  split.
  - intros r a r' P. pose proof (parse_token_view header header_name r) as V. rewrite P in V. destruct V as (-> & T & _).
    exists a, []. split; [reflexivity|]. split; [now split|constructor].
  - intros x a w r [T ->] W F. exists w. split; [exact W|]. apply parse_token_exact; [exact T|]. now apply follows_no_tchar.
  - intros x a [T ->]. destruct (token_start x [] T) as (c & t & E & H). rewrite app_nil_r in E. eauto.
Qed.
Lemma token_shrinks r a r' : parse_token header header_name r = Ok (a, r') -> (length r' < length r)%nat.
Proof.
  intros P. pose proof (parse_token_view header header_name r) as V. rewrite P in V. destruct V as (-> & [T _] & _).
  rewrite app_length. destruct a; [contradiction|]. simpl. lia.
Qed.
Lemma token_fails r e : parse_token header header_name r = Raise e -> format_error header header_name e.
Proof.
  intros P. pose proof (parse_token_view header header_name r) as V. rewrite P in V. destruct V as (-> & _).
  apply format_error_bad. repeat constructor.
Qed.

Lemma protocol_view r :
  match parse_upgrade_protocol header header_name r with
  | Ok (x, r') => r = x ++ r' /\ protocol_item x x
  | Raise e => e = bad_format header_name (s "expected protocol") header r
  end.
Proof.
  unfold parse_upgrade_protocol. destruct (span is_tchar r) as [x y] eqn:Sp. apply span_view in Sp as (-> & F & T).
  destruct x as [|c x]; [reflexivity|].
  assert (Tx : token (c :: x)) by (apply token_class; split; [discriminate|exact F]).
  assert (D : forall z : str, z = y -> (c :: x) ++ y = (c :: x) ++ z /\ protocol_item (c :: x) (c :: x)).
  { intros z ->. split; [reflexivity|]. split; [reflexivity|]. now left. }
  destruct y as [|d y]; [auto|]. destruct (N.eqb_spec d 47) as [->|Nd].
  - destruct (span is_tchar y) as [x2 y2] eqn:Sp2. apply span_view in Sp2 as (-> & F2 & T2).
    destruct x2 as [|c2 x2]; [auto|]. split; [rewrite <- !app_assoc; reflexivity|]. split; [reflexivity|]. right.
    exists (c :: x), (c2 :: x2). split; [exact Tx|]. split; [apply token_class; split; [discriminate|exact F2]|]. reflexivity.
  - destruct d as [|p]; [auto|]. repeat (destruct p as [p|p|]; auto). contradiction.
Qed.

Lemma match_slash {B} d (r : str) (f : str -> B) (g : B) : d <> 47 ->
  match d :: r with 47 :: r' => f r' | _ => g end = g.
Proof. intros N. destruct d as [|p]; [reflexivity|]. repeat (destruct p as [p|p|]; try reflexivity). contradiction. Qed.

Lemma protocol_recognized : recognizes (parse_upgrade_protocol header header_name) protocol_item.
Proof.
  split.
  - intros r a r' P. pose proof (protocol_view r) as V. rewrite P in V. destruct V as (-> & T).
    exists a, []. split; [reflexivity|]. split; [exact T|constructor].
  - intros x a w r [-> D] W F. exists w. split; [exact W|].
    pose proof (follows_no_tchar w r W F) as Nt.
    assert (Ns : forall t, w ++ r <> 47 :: t).
    { intros t E. destruct W as [|c w H W]; cbn [app] in E.
      - rewrite E in F. discriminate F.
      - injection E as -> _. destruct H; discriminate. }
    unfold parse_upgrade_protocol. destruct D as [T|(y & z & Ty & Tz & ->)].
    + apply token_class in T as [Ne Fx]. rewrite (span_exact is_tchar x (w ++ r) Fx Nt).
      destruct x as [|c x]; [contradiction|]. destruct (w ++ r) as [|d t] eqn:Q; [reflexivity|].
      assert (d <> 47) by (intros ->; now apply (Ns t)).
      destruct d as [|p]; [reflexivity|]. repeat (destruct p as [p|p|]; try reflexivity). contradiction.
    + apply token_class in Ty as [Ney Fy]. apply token_class in Tz as [Nez Fz].
      rewrite <- !app_assoc. change (s "/" ++ z ++ w ++ r) with (47 :: z ++ w ++ r).
      rewrite (span_exact is_tchar y (47 :: z ++ w ++ r) Fy eq_refl). destruct y as [|c y]; [contradiction|].
      rewrite (span_exact is_tchar z (w ++ r) Fz Nt). destruct z as [|d z]; [contradiction|]. reflexivity.
  - intros x a [_ [T|(y & z & Ty & _ & ->)]].
    + destruct (token_start x [] T) as (c & t & E & H). rewrite app_nil_r in E. eauto.
    + destruct (token_start y (s "/" ++ z) Ty) as (c & t & -> & H). eauto.
Qed.
Lemma protocol_nonempty x a : protocol_item x a -> x <> [].
Proof.
  intros [_ [[T _]|(y & z & [T _] & _ & ->)]]; [exact T|]. destruct y; [contradiction|discriminate].
Qed.
Lemma protocol_shrinks r a r' : parse_upgrade_protocol header header_name r = Ok (a, r') -> (length r' < length r)%nat.
Proof.
  intros P. pose proof (protocol_view r) as V. rewrite P in V. destruct V as (-> & T). apply protocol_nonempty in T.
  rewrite app_length. destruct a; [contradiction|]. simpl. lia.
Qed.
Lemma protocol_fails r e : parse_upgrade_protocol header header_name r = Raise e -> format_error header header_name e.
Proof.
  intros P. pose proof (protocol_view r) as V. rewrite P in V. subst. apply format_error_bad. repeat constructor.
Qed.

(* ---- quoted strings ---- *)

Lemma is_qdtext_iff c : is_qdtext c = true <-> qdtext c.
Proof. unfold is_qdtext, qdtext. lia. Qed.
Lemma is_quotable_iff c : is_quotable c = true <-> quotable c.
Proof. unfold is_quotable, quotable. lia. Qed.

Lemma quoted_tail_exact y v : quoted_content y v -> forall r, quoted_tail (y ++ 34 :: r) = Some (v, r).
Proof.
  induction 1 as [|c x v Q H IH|c x v Q H IH]; intros r; cbn [app quoted_tail]; [reflexivity| |].
  - assert (c <> 34 /\ c <> 92) as [N1 N2] by (unfold qdtext in Q; lia). apply is_qdtext_iff in Q.
    destruct (N.eqb_spec c 34); [contradiction|]. destruct (N.eqb_spec c 92); [contradiction|]. now rewrite Q, IH.
  - apply is_quotable_iff in Q. change (92 =? 34) with false. change (92 =? 92) with true. cbn iota. now rewrite Q, IH.
Qed.
Lemma quoted_tail_sound : forall n r, (length r <= n)%nat -> forall v r', quoted_tail r = Some (v, r') ->
  exists y, r = y ++ 34 :: r' /\ quoted_content y v.
Proof.
  induction n as [|n IH]; intros r Hl v r'; destruct r as [|c r]; try discriminate; [simpl in Hl; lia|]. cbn [quoted_tail].
  destruct (N.eqb_spec c 34) as [->|N1]; [intros [= <- <-]; exists []; split; [reflexivity|constructor]|].
  destruct (N.eqb_spec c 92) as [->|N2].
  - destruct r as [|d r]; [discriminate|]. destruct (is_quotable d) eqn:Q; [|discriminate].
    destruct (quoted_tail r) as [[v1 r1]|] eqn:T; [|discriminate]. intros [= <- <-].
    destruct (IH r) with (v := v1) (r' := r1) as (y & -> & H); [simpl in Hl; lia|exact T|].
    exists (92 :: d :: y). split; [reflexivity|]. constructor; [now apply is_quotable_iff|exact H].
  - destruct (is_qdtext c) eqn:Q; [|discriminate].
    destruct (quoted_tail r) as [[v1 r1]|] eqn:T; [|discriminate]. intros [= <- <-].
    destruct (IH r) with (v := v1) (r' := r1) as (y & -> & H); [simpl in Hl; lia|exact T|].
    exists (c :: y). split; [reflexivity|]. constructor; [now apply is_qdtext_iff|exact H].
Qed.

Lemma parse_quoted_string_exact q v r : quoted_string q v -> parse_quoted_string header header_name (q ++ r) = Ok (v, r).
Proof.
  intros (y & -> & Q). cbn [app]. change (s """" ++ y ++ s """") with (34 :: y ++ [34]). cbn [app].
  unfold parse_quoted_string. rewrite <- app_assoc. cbn [app]. now rewrite (quoted_tail_exact y v Q).
Qed.
Lemma parse_quoted_string_view r :
  match parse_quoted_string header header_name r with
  | Ok (v, r') => exists q, r = q ++ r' /\ quoted_string q v
  | Raise e => e = bad_format header_name (s "expected quoted string") header r
  end.
Proof.
  assert (D : forall c t, c <> 34 -> match c :: t with
     | 34 :: r => match quoted_tail r with Some vy => Ok vy | None => Raise (bad_format header_name (s "expected quoted string") header (c :: t)) end
     | _ => Raise (bad_format header_name (s "expected quoted string") header (c :: t)) end = Raise (bad_format header_name (s "expected quoted string") header (c :: t))).
  { intros c t N. destruct c as [|p]; [reflexivity|]. repeat (destruct p as [p|p|]; try reflexivity). contradiction. }
  unfold parse_quoted_string. destruct r as [|c r]; [reflexivity|]. destruct (N.eq_dec c 34) as [->|N].
  - destruct (quoted_tail r) as [[v r']|] eqn:T; [|reflexivity].
    apply (quoted_tail_sound (length r) r (le_n _)) in T as (y & -> & Q). exists (s """" ++ y ++ s """").
    split; [|now exists y]. cbn [app]. change (s """" ++ y ++ s """") with (34 :: y ++ [34]). cbn [app]. now rewrite <- app_assoc.
  - rewrite (D c r N). reflexivity.
Qed.

(* ---- extensions ---- *)

(* what follows a parameter: whitespace, then a delimiter or the end *)
Definition delim (r : str) : Prop :=
  match parse_OWS r with [] => True | c :: _ => c = 44 \/ c = 59 end.

Lemma delim_no_tchar r : delim r -> no_tchar r.
Proof.
  unfold delim. destruct (parse_OWS_view r) as (w & W & E & N). intros D. rewrite E.
  destruct W as [|c w H W]; cbn [app].
  - destruct (parse_OWS r) as [|c t]; [exact I|]. cbn. destruct D as [-> | ->]; reflexivity.
  - cbn. destruct (is_tchar c) eqn:T; [|reflexivity]. apply tchar_facts in T. apply sp_iff in H. destruct T. congruence.
Qed.
Lemma ows_no_tchar w c r : ows w -> is_tchar c = false -> no_tchar (w ++ c :: r).
Proof.
  intros W Hc. destruct W as [|d w H W]; cbn [app]; [exact Hc|].
  cbn. destruct (is_tchar d) eqn:T; [|reflexivity]. apply tchar_facts in T. apply sp_iff in H. destruct T. congruence.
Qed.

Lemma param_complete x p r : param_item x p -> delim r ->
  parse_extension_item_param header header_name (x ++ r) = Ok (p, parse_OWS r).
Proof.
  intros P D. pose proof (delim_no_tchar r D) as Nt. unfold parse_extension_item_param.
  destruct P as [x T|x w w' v T W W' Tv|x w w' q v T W W' Q Tv].
  - rewrite (parse_token_exact header header_name x r T Nt). cbn [rbind].
    assert (peek_is 61 (parse_OWS r) = false) as ->; [|reflexivity].
    unfold delim in D. destruct (parse_OWS r) as [|c t]; [reflexivity|]. cbn. destruct D as [-> | ->]; reflexivity.
  - rewrite <- !app_assoc. change (s "=" ++ w' ++ v ++ r) with (61 :: w' ++ v ++ r).
    rewrite (parse_token_exact header header_name x _ T) by (now apply ows_no_tchar). cbn [rbind].
    rewrite parse_OWS_skip; [|exact W|reflexivity]. cbn [peek_is tl]. change (61 =? 61) with true. cbn iota.
    rewrite parse_OWS_skip; [|exact W'|now apply token_no_sp].
    assert (peek_is 34 (v ++ r) = false) as ->.
    { destruct (token_start v r Tv) as (c & t & -> & H). cbn. apply tchar_facts in H. now apply N.eqb_neq. }
    rewrite (parse_token_exact header header_name v r Tv Nt). reflexivity.
  - rewrite <- !app_assoc. change (s "=" ++ w' ++ q ++ r) with (61 :: w' ++ q ++ r).
    rewrite (parse_token_exact header header_name x _ T) by (now apply ows_no_tchar). cbn [rbind].
    rewrite parse_OWS_skip; [|exact W|reflexivity]. cbn [peek_is tl]. change (61 =? 61) with true. cbn iota.
    assert (Hq : exists t, q = 34 :: t) by (destruct Q as (y & -> & _); now exists (y ++ [34])).
    rewrite parse_OWS_skip; [|exact W'|destruct Hq as [t ->]; reflexivity].
    assert (peek_is 34 (q ++ r) = true) as -> by (destruct Hq as [t ->]; reflexivity).
    rewrite (parse_quoted_string_exact q v r Q). cbn [rbind]. apply token_class in Tv as [Ne F].
    rewrite <- (app_nil_r v) at 1. rewrite (span_exact is_tchar v [] F I). destruct v; [contradiction|]. reflexivity.
Qed.

Lemma peek_cons c r : peek_is c r = true -> r = c :: tl r.
Proof. destruct r as [|d r]; [discriminate|]. cbn. intros H. apply N.eqb_eq in H. now subst. Qed.

Lemma param_view r :
  match parse_extension_item_param header header_name r with
  | Ok (p, r') => exists x w, r = x ++ w ++ r' /\ param_item x p /\ ows w
  | Raise e => format_error header header_name e
  end.
Proof.
  unfold parse_extension_item_param. pose proof (parse_token_view header header_name r) as V.
  destruct (parse_token header header_name r) as [[x r1]|e] eqn:P1; cbn [rbind].
  2:{ destruct V as (-> & _). apply format_error_bad. repeat constructor. }
  destruct V as (-> & T & _). destruct (parse_OWS_view r1) as (w & W & E & N).
  destruct (peek_is 61 (parse_OWS r1)) eqn:Pk.
  2:{ exists x, w. split; [now rewrite <- E|]. split; [now constructor|exact W]. }
  apply peek_cons in Pk. set (r2 := tl (parse_OWS r1)) in *. destruct (parse_OWS_view r2) as (w2 & W2 & E2 & N2).
  destruct (peek_is 34 (parse_OWS r2)) eqn:Pq.
  - pose proof (parse_quoted_string_view (parse_OWS r2)) as Q.
    destruct (parse_quoted_string header header_name (parse_OWS r2)) as [[v r3]|e]; cbn [rbind].
    2:{ subst. apply format_error_bad. repeat constructor. }
    destruct Q as (q & Eq & Q). destruct (span is_tchar v) as [v1 v2] eqn:Sp.
    destruct v1 as [|c v1]; [cbn [rbind]; apply format_error_bad; repeat constructor|].
    destruct v2 as [|c2 v2]; [|cbn [rbind]; apply format_error_bad; repeat constructor]. cbn [rbind].
    apply span_view in Sp as (Ev & F & _). rewrite app_nil_r in Ev.
    destruct (parse_OWS_view r3) as (w3 & W3 & E3 & N3).
    exists (x ++ w ++ s "=" ++ w2 ++ q), w3. split; [|split; [|exact W3]].
    + rewrite E, Pk, E2, Eq, <- !app_assoc. cbn [app]. change (s "=" ++ ?t) with (61 :: t). rewrite <- E3. reflexivity.
    + apply param_quoted; auto. subst v. apply token_class. split; [discriminate|exact F].
  - pose proof (parse_token_view header header_name (parse_OWS r2)) as V2.
    destruct (parse_token header header_name (parse_OWS r2)) as [[v r3]|e]; cbn [rbind].
    2:{ destruct V2 as (-> & _). apply format_error_bad. repeat constructor. }
    destruct V2 as (Ev & Tv & _). destruct (parse_OWS_view r3) as (w3 & W3 & E3 & N3).
    exists (x ++ w ++ s "=" ++ w2 ++ v), w3. split; [|split; [|exact W3]].
    + rewrite E, Pk, E2, Ev, <- !app_assoc. cbn [app]. change (s "=" ++ ?t) with (61 :: t). rewrite <- E3. reflexivity.
    + now apply param_token.
Qed.

Lemma param_nonempty x p : param_item x p -> x <> [].
Proof. intros [y [T _]|y w w' v [T _] _ _ _|y w w' q v [T _] _ _ _ _]; destruct y; try contradiction; discriminate. Qed.
Lemma param_start x p r : param_item x p -> no_sp (x ++ r).
Proof.
  intros [y T|y w w' v T _ _ _|y w w' q v T _ _ _ _]; rewrite <- ?app_assoc; now apply token_no_sp.
Qed.

Lemma params_complete x l : params x l -> forall fuel w r, (length l < fuel)%nat -> ows w -> follows r ->
  parse_params header header_name fuel (parse_OWS (x ++ w ++ r)) = Ok (l, r) /\ delim (x ++ w ++ r).
Proof.
  induction 1 as [|w0 w1 x p y l W0 W1 P Ps IH]; intros fuel w r Hf W F; (destruct fuel as [|f]; [lia|]).
  - cbn [app parse_params]. assert (Nr : no_sp r) by (destruct r as [|c r]; [exact I|]; cbn in F |- *; now subst).
    unfold delim. rewrite (parse_OWS_skip w r W Nr). split; [|destruct r as [|c r]; [exact I|]; now left].
    assert (peek_is 59 r = false) as ->; [|reflexivity]. destruct r as [|c r]; [reflexivity|]. cbn in F |- *. now subst.
  - rewrite <- !app_assoc. change (s ";" ++ ?t) with (59 :: t).
    destruct (IH f w r) as [I1 I2]; auto. { simpl in Hf. lia. }
    assert (Q : parse_OWS (w0 ++ 59 :: w1 ++ x ++ y ++ w ++ r) = 59 :: w1 ++ x ++ y ++ w ++ r) by now apply parse_OWS_skip.
    unfold delim at 1. rewrite Q. split; [|now right].
    cbn [parse_params peek_is tl]. change (59 =? 59) with true. cbn iota.
    rewrite parse_OWS_skip; [|exact W1|eapply param_start; exact P].
    rewrite (param_complete x p (y ++ w ++ r) P I2). cbn [rbind]. rewrite I1. reflexivity.
Qed.

Lemma params_sound fuel : forall r l r', parse_params header header_name fuel r = Ok (l, r') ->
  forall w0, ows w0 -> exists x w, w0 ++ r = x ++ w ++ r' /\ params x l /\ ows w.
Proof.
  induction fuel as [|f IH]; intros r l r'; cbn [parse_params]; [discriminate|].
  destruct (peek_is 59 r) eqn:Pk.
  - apply peek_cons in Pk. set (r1 := tl r) in *. destruct (parse_OWS_view r1) as (w1 & W1 & E1 & _).
    pose proof (param_view (parse_OWS r1)) as V.
    destruct (parse_extension_item_param header header_name (parse_OWS r1)) as [[p r2]|e]; cbn [rbind]; [|discriminate].
    destruct V as (x & w & E & P & W).
    destruct (parse_params header header_name f r2) as [[l2 r3]|e] eqn:Ps; cbn [rbind]; [|discriminate].
    intros [= <- <-] w0 W0. destruct (IH _ _ _ Ps w W) as (y & w3 & E3 & Py & W3).
    exists (w0 ++ s ";" ++ w1 ++ x ++ y), w3. split; [|split; [now constructor|exact W3]].
    rewrite Pk, E1, E, <- !app_assoc. change (s ";" ++ ?t) with (59 :: t). now rewrite E3.
  - intros [= <- <-] w0 W0. exists [], w0. split; [reflexivity|]. split; [constructor|exact W0].
Qed.

Lemma params_fails fuel : forall r, (length r < fuel)%nat ->
  match parse_params header header_name fuel r with
  | Ok (_, r') => (length r' <= length r)%nat
  | Raise e => format_error header header_name e
  end.
Proof.
  induction fuel as [|f IH]; intros r Hl; [lia|]. cbn [parse_params]. destruct (peek_is 59 r) eqn:Pk; [|lia].
  apply peek_cons in Pk. pose proof (param_view (parse_OWS (tl r))) as V. pose proof (parse_OWS_length (tl r)) as L1.
  assert (L0 : (length (tl r) < length r)%nat) by (rewrite Pk at 2; simpl; lia).
  destruct (parse_extension_item_param header header_name (parse_OWS (tl r))) as [[p r2]|e]; cbn [rbind]; [|exact V].
  destruct V as (x & w & E & _). rewrite E, !app_length in L1. specialize (IH r2).
  destruct (parse_params header header_name f r2) as [[l r3]|e]; cbn [rbind]; [|apply IH; lia].
  specialize (IH ltac:(lia)). lia.
Qed.

Lemma params_length x l : params x l -> (length l <= length x)%nat.
Proof.
  induction 1 as [|w w' x p r l W W' P Ps IH]; [simpl; lia|]. rewrite !app_length. cbn [length s String.list_ascii_of_string map].
  lia.
Qed.

Lemma extension_recognized : recognizes (parse_extension_item header header_name) extension_item.
Proof.
  split.
  - intros r a r'. unfold parse_extension_item. pose proof (parse_token_view header header_name r) as V.
    destruct (parse_token header header_name r) as [[x r1]|e]; cbn [rbind]; [|discriminate]. destruct V as (-> & T & _).
    destruct (parse_OWS_view r1) as (w & W & E & _).
    destruct (parse_params header header_name _ _) as [[l r2]|e] eqn:Ps; cbn [rbind]; [|discriminate]. intros [= <- <-].
    destruct (params_sound _ _ _ _ Ps w W) as (y & w2 & E2 & Py & W2). exists (x ++ y), w2. split; [|split; [|exact W2]].
    + rewrite E, E2, <- app_assoc. reflexivity.
    + exists x, y. auto.
  - intros x a w r (y & t & -> & T & Ef & Ps) W F. exists []. split; [constructor|].
    destruct (params_complete t (snd a) Ps (S (length (parse_OWS (t ++ w ++ r)))) w r) as [P D]; auto.
    + pose proof (params_length _ _ Ps) as L.
      destruct Ps as [|w0 w1 x p z l W0 W1 P Ps]; [simpl; lia|].
      rewrite <- !app_assoc. change (s ";" ++ ?t) with (59 :: t). rewrite parse_OWS_skip; [|exact W0|reflexivity].
      pose proof (params_length _ _ Ps). cbn [length]. rewrite !app_length. lia.
    + unfold parse_extension_item. rewrite <- app_assoc.
      rewrite (parse_token_exact header header_name y _ T) by now apply delim_no_tchar. cbn [rbind]. rewrite P. cbn [rbind].
      destruct a as [n l]. cbn [fst snd] in *. now subst.
  - intros x a (y & t & -> & T & _). destruct (token_start y t T) as (c & u & -> & H). eauto.
Qed.

Lemma extension_view r :
  match parse_extension_item header header_name r with
  | Ok (_, r') => (length r' < length r)%nat
  | Raise e => format_error header header_name e
  end.
Proof.
  unfold parse_extension_item. destruct (parse_token header header_name r) as [[x r1]|e] eqn:P; cbn [rbind].
  2:{ eapply token_fails; exact P. }
  apply token_shrinks in P. pose proof (parse_OWS_length r1).
  pose proof (params_fails (S (length (parse_OWS r1))) (parse_OWS r1) (le_n _)) as V.
  destruct (parse_params header header_name _ _) as [[l r2]|e]; cbn [rbind]; [lia|exact V].
Qed.
End Items.
