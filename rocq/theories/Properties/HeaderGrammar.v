(* C31-C35: parsing and building HTTP headers. *)
From Verif Require Import Base.Prelude Base.PreludeFacts Base.Utf8 Base.Utf8Facts Base.Base64 Base.Base64Facts
  Model.Http11 Model.Headers Spec.Rfc7230 Proofs.HeadersFacts.
Local Open Scope N_scope.

(* ---- C34 ---- *)

(* A header is parsed if and only if it follows the grammar; then its items are returned, and
   otherwise InvalidHeaderFormat is raised. *)
Definition parses_per_grammar {A} (parse : str -> result (list A)) (name : str) (item : str -> A -> Prop) : Prop :=
  forall h,
    (forall l, parse h = Ok l <-> field_value item h l) /\
    ((exists l, parse h = Ok l) \/
     exists error pos, Forall (fun c => c < 128) error /\ parse h = Raise (InvalidHeaderFormat name error h pos)).

Lemma per_grammar {A} name (parse_item : str -> str -> str -> result (A * str)) item :
  (forall h, recognizes (parse_item h name) item) ->
  (forall h r, match parse_item h name r with Ok (_, r') => (length r' < length r)%nat | Raise e => format_error h name e end) ->
  parses_per_grammar (fun h => parse_list h name (parse_item h name)) name item.
Proof.
  intros R V h. split.
  - intros l. split; [apply parse_list_sound, R|apply parse_list_complete, R].
  - destruct (parse_list h name (parse_item h name)) as [l|e] eqn:P; [eauto|right].
    apply parse_list_fails in P as (error & pos & Ascii & ->); [eauto| |].
    + intros r a r' Q. specialize (V h r). now rewrite Q in V.
    + intros r e' Q. specialize (V h r). now rewrite Q in V.
Qed.

Lemma token_both h name r : match parse_token h name r with
  | Ok (_, r') => (length r' < length r)%nat | Raise e => format_error h name e end.
Proof.
  destruct (parse_token h name r) as [[a r']|e] eqn:P; [eapply token_shrinks; exact P|eapply token_fails; exact P].
Qed.

Theorem C34_connection_grammar : parses_per_grammar parse_connection (s "Connection") token_item.
Proof. apply (per_grammar (s "Connection") parse_token); intros; [apply token_recognized|apply token_both]. Qed.

Theorem C34_upgrade_grammar : parses_per_grammar parse_upgrade (s "Upgrade") protocol_item.
Proof.
  apply (per_grammar (s "Upgrade") parse_upgrade_protocol); intros; [apply protocol_recognized|].
  destruct (parse_upgrade_protocol h (s "Upgrade") r) as [[a r']|e] eqn:P;
    [eapply protocol_shrinks; exact P|eapply protocol_fails; exact P].
Qed.

Theorem C34_subprotocol_grammar : parses_per_grammar parse_subprotocol (s "Sec-WebSocket-Protocol") token_item.
Proof. apply (per_grammar (s "Sec-WebSocket-Protocol") parse_token); intros; [apply token_recognized|apply token_both]. Qed.

Theorem C34_extension_grammar : parses_per_grammar parse_extension (s "Sec-WebSocket-Extensions") extension_item.
Proof.
  apply (per_grammar (s "Sec-WebSocket-Extensions") parse_extension_item); intros; [apply extension_recognized|apply extension_view].
Qed.

(* headers on both sides of the grammar *)
Example C34_applies :
  parse_connection (s ", keep-alive ,,	Upgrade ,") = Ok [s "keep-alive"; s "Upgrade"] /\
  parse_connection (s "keep-alive Upgrade") = Raise (InvalidHeaderFormat (s "Connection") (s "expected comma") (s "keep-alive Upgrade") 11) /\
  parse_upgrade (s "websocket, h2c/1") = Ok [s "websocket"; s "h2c/1"] /\
  parse_extension (s "a; b = ""c\d"" ;e, f") = Ok [(s "a", [(s "b", Some (s "cd")); (s "e", None)]); (s "f", [])].
Proof. vm_compute. auto. Qed.

(* ---- C31, C32 ---- *)

Lemma join_more {A} (item : str -> A -> Prop) (build : A -> str) : forall l x a, 
  item x a -> (forall e, In e l -> item (build e) e) ->
  list1 item (join (s ", ") (x :: map build l)) (a :: l).
Proof.
  assert (M : forall l, (forall e, In e l -> item (build e) e) ->
     more item (flat_map (fun x => s ", " ++ x) (map build l)) l).
  { induction l as [|e l IH]; intros H; [constructor|]. cbn [map flat_map].
    change (s ", " ++ build e) with (s "," ++ s " " ++ build e). rewrite <- !app_assoc.
    apply (more_item item [] (s " ") (build e) e); [constructor|repeat constructor|apply H; now left|].
    apply IH. intros e' He. apply H. now right. }
  assert (J : forall (ls : list str) x, join (s ", ") (x :: ls) = x ++ flat_map (fun x => s ", " ++ x) ls).
  { induction ls as [|y ls IH]; intros x; cbn [join flat_map]; [now rewrite app_nil_r|].
    cbn [join] in IH. rewrite IH, <- app_assoc. reflexivity. }
  intros l x a Ix H. rewrite J. constructor; auto.
Qed.

Lemma build_field {A} (item : str -> A -> Prop) (build : A -> str) l : l <> [] ->
  (forall e, In e l -> item (build e) e) -> field_value item (join (s ", ") (map build l)) l.
Proof.
  intros N H. destruct l as [|a l]; [contradiction|]. exists (join (s ", ") (map build (a :: l))), [].
  split; [symmetry; apply app_nil_r|]. split; [constructor|]. cbn [map]. apply join_more; [apply H; now left|].
  intros e He. apply H. now right.
Qed.

(* an extension whose names and values are tokens *)
Definition token_extension (e : str * list (str * option str)) : Prop :=
  token (fst e) /\ forall p, In p (snd e) -> token (fst p) /\ forall v, snd p = Some v -> token v.

Lemma build_item_ok e : token_extension e -> extension_item (build_extension_item e) e.
Proof.
  intros [Tn Tp]. destruct e as [n ps]. cbn [fst snd] in *. unfold build_extension_item. cbn [fst snd].
  assert (J : forall (ls : list str) x, join (s "; ") (x :: ls) = x ++ flat_map (fun x => s "; " ++ x) ls).
  { induction ls as [|y ls IH]; intros x; cbn [join flat_map]; [now rewrite app_nil_r|].
    cbn [join] in IH. rewrite IH, <- app_assoc. reflexivity. }
  rewrite J. exists n, (flat_map (fun x => s "; " ++ x) (map build_param ps)). cbn [fst snd].
  split; [reflexivity|]. split; [exact Tn|]. split; [reflexivity|].
  clear Tn J. induction ps as [|p ps IH]; [constructor|]. cbn [map flat_map].
  change (s "; " ++ build_param p) with (s ";" ++ s " " ++ build_param p). rewrite <- !app_assoc.
  apply (params_cons [] (s " ")); [constructor|repeat constructor| |].
  - destruct (Tp p) as [Tn Tv]; [now left|]. destruct p as [x [v|]]; unfold build_param; cbn [fst snd] in *.
    + apply (param_token x [] []); [exact Tn|constructor|constructor|now apply Tv].
    + now constructor.
  - apply IH. intros q Hq. apply Tp. now right.
Qed.

Theorem C31_extension_header_round_trip : forall l, l <> [] -> Forall token_extension l ->
  parse_extension (build_extension l) = Ok l.
Proof.
  intros l N F. apply C34_extension_grammar. apply build_field; [exact N|].
  intros e He. apply build_item_ok. rewrite Forall_forall in F. auto.
Qed.

Example C31_applies :
  let l := [(s "permessage-deflate", [(s "server_no_context_takeover", None); (s "client_max_window_bits", Some (s "15"))]); (s "x", [])] in
  Forall token_extension l /\ build_extension l = s "permessage-deflate; server_no_context_takeover; client_max_window_bits=15, x".
Proof.
  split; [|reflexivity].
  assert (T : forall x, match span is_tchar x with (_ :: _, []) => True | _ => False end -> token x).
  { intros x. destruct (span is_tchar x) as [y z] eqn:Sp. apply span_view in Sp as (-> & F & _).
    destruct y; [contradiction|]. destruct z; [|contradiction]. intros _. rewrite app_nil_r. apply token_class. split; [discriminate|exact F]. }
  constructor; [|constructor; [|constructor]]; (split; [apply T; exact I|]); cbn [fst snd In].
  - intros p [<-|[<-|[]]]; (split; [apply T; exact I|]); cbn [snd]; [discriminate|]. intros v [= <-]. apply T. exact I.
  - intros p [].
Qed.

(* no header can be built from an empty list: it isn't a valid header *)
Theorem C31_empty_refuted : build_extension [] = [] /\ exists e, parse_extension [] = Raise e.
Proof. split; [reflexivity|]. eexists. reflexivity. Qed.

Theorem C32_subprotocol_header_round_trip : forall l, l <> [] -> Forall token l ->
  parse_subprotocol (build_subprotocol l) = Ok l.
Proof.
  intros l N F. apply C34_subprotocol_grammar. unfold build_subprotocol.
  rewrite <- (map_id l) at 1. apply build_field; [exact N|].
  intros e He. split; [|reflexivity]. rewrite Forall_forall in F. auto.
Qed.
Example C32_applies : parse_subprotocol (build_subprotocol [s "chat"; s "superchat"; s "chat"]) = Ok [s "chat"; s "superchat"; s "chat"].
Proof. reflexivity. Qed.

(* ---- C33 ---- *)

Theorem C33_quotable : forall v, (exists q, build_quoted_string v = Ok q) <-> Forall quotable v.
Proof.
  intros v. unfold build_quoted_string. destruct (forallb is_quotable v) eqn:F.
  - split; [intros _|eauto]. apply Forall_forall. intros c Hc. apply is_quotable_iff. rewrite forallb_forall in F. auto.
  - split; [intros [q Q]; discriminate|]. intros H. exfalso.
    assert (forallb is_quotable v = true); [|congruence]. apply forallb_forall. intros c Hc. apply is_quotable_iff.
    rewrite Forall_forall in H. auto.
Qed.

(* The quoted string is valid, and parsing it, whatever follows, gives back the value: for
   ASCII values. *)
Theorem C33_quoted_string_round_trip_partial : forall v q header name r,
  build_quoted_string v = Ok q -> Forall (fun c => c < 128) v ->
  quoted_string q v /\ parse_quoted_string header name (q ++ r) = Ok (v, r).
Proof.
  intros v q header name r B F.
  assert (Q : quoted_string q v).
  { unfold build_quoted_string in B. destruct (forallb is_quotable v) eqn:G; [|discriminate]. apply ok_inj in B. subst q.
    exists (flat_map quote_char v). split; [reflexivity|].
    induction F as [|c v Hc F IH]; [constructor|]. cbn [forallb] in G. apply andb_true_iff in G as [G1 G2].
    apply is_quotable_iff in G1. cbn [flat_map]. unfold quote_char.
    destruct (N.eqb_spec c 34) as [->|N1]; [cbn [orb app]; apply qc_pair; auto|].
    destruct (N.eqb_spec c 92) as [->|N2]; [cbn [orb app]; apply qc_pair; auto|]. cbn [orb app].
    apply qc_text; [|auto]. unfold quotable, qdtext in *. lia. }
  split; [exact Q|]. now apply parse_quoted_string_exact.
Qed.
Example C33_applies : exists q, build_quoted_string (s "a ""b"" \c") = Ok q /\ q = s """a \""b\"" \\c""".
Proof. eexists. split; reflexivity. Qed.

(* Values with characters U+0080 to U+00FF are quoted, but can't be parsed. *)
Theorem C33_quoted_string_refuted : forall v, Forall quotable v -> (exists c, In c v /\ 128 <= c) ->
  exists q e, build_quoted_string v = Ok q /\ forall header name r, parse_quoted_string header name (q ++ r) = Raise (e header name r).
Proof.
  intros v F (c & Hc & Big). destruct (proj2 (C33_quotable v) F) as [q B]. exists q.
  exists (fun header name r => bad_format name (s "expected quoted string") header (q ++ r)). split; [exact B|].
  intros header name r. pose proof (parse_quoted_string_view header name (q ++ r)) as V.
  destruct (parse_quoted_string header name (q ++ r)) as [[v' r']|e]; [|now subst]. exfalso.
  unfold build_quoted_string in B. destruct (forallb is_quotable v); [|discriminate]. apply ok_inj in B. subst q.
  destruct V as (q & E & y & -> & Q). change (s """") with [34] in E. cbn [app] in E. injection E as E.
  rewrite <- !app_assoc in E. cbn [app] in E. clear F.
  revert y v' Q E. induction v as [|d v IH]; [contradiction|]. intros y v' Q E.
  cbn [flat_map] in E. unfold quote_char at 1 in E.
  destruct (N.eqb_spec d 34) as [->|N1].
  - cbn [orb app] in E. destruct Q as [|c' x' w' T' Q'|c' x' w' T' Q']; cbn [app] in E.
    + discriminate.
    + injection E as <- E. unfold qdtext in T'. lia.
    + injection E as <- E. destruct Hc as [<-|Hc]; [lia|]. eapply IH; eauto.
  - destruct (N.eqb_spec d 92) as [->|N2].
    + cbn [orb app] in E. destruct Q as [|c' x' w' T' Q'|c' x' w' T' Q']; cbn [app] in E.
      * discriminate.
      * injection E as <- E. unfold qdtext in T'. lia.
      * injection E as <- E. destruct Hc as [<-|Hc]; [lia|]. eapply IH; eauto.
    + cbn [orb app] in E. destruct Q as [|c' x' w' T' Q'|c' x' w' T' Q']; cbn [app] in E.
      * injection E as -> E. contradiction.
      * injection E as <- E. destruct Hc as [<-|Hc]; [unfold qdtext in T'; lia|]. eapply IH; eauto.
      * injection E as -> E. contradiction.
Qed.
Example C33_refuted_applies : exists q, build_quoted_string [99; 97; 102; 233] = Ok q.
Proof. eexists. reflexivity. Qed.

(* ---- C35 ---- *)

Lemma split_colon_exact u p : existsb (N.eqb 58) u = false -> split_colon (u ++ s ":" ++ p) = Some (u, p).
Proof.
  induction u as [|c u IH]; cbn [existsb app split_colon]; [reflexivity|].
  intros H. apply orb_false_iff in H as [H1 H2]. rewrite N.eqb_sym, H1, (IH H2). reflexivity.
Qed.

Lemma b64_char_token68 v : (v < 64) -> is_token68_char (b2n (b64_char v)) = true /\ b2n (b64_char v) < 128.
Proof.
  intros H.
  assert (A : forallb (fun k => let v := N.of_nat k in is_token68_char (b2n (b64_char v)) && (b2n (b64_char v) <? 128)) (seq 0 64) = true)
    by (vm_compute; reflexivity).
  rewrite forallb_forall in A. specialize (A (N.to_nat v)). cbn zeta in A. rewrite N2Nat.id in A.
  rewrite andb_true_iff in A. rewrite N.ltb_lt in A. apply A. apply in_seq. lia.
Qed.

Lemma b64encode_shape l : exists x y, map b2n (b64encode l) = x ++ y /\
  Forall (fun c => is_token68_char c = true /\ c < 128) x /\ Forall (fun c => c = 61) y /\ (l <> [] -> x <> []).
Proof.
  induction l as [|a|a c|a c d r IH] using list_ind3; bnds; cbn [b64encode map].
  - exists [], []. repeat split; try constructor. contradiction.
  - eexists [_; _], [_; _]. split; [reflexivity|]. split; [|split; [repeat constructor|discriminate]].
    repeat constructor; apply b64_char_token68; lia.
  - eexists [_; _; _], [_]. split; [reflexivity|]. split; [|split; [repeat constructor|discriminate]].
    repeat constructor; apply b64_char_token68; lia.
  - destruct IH as (x & y & -> & Fx & Fy & _). eexists (_ :: _ :: _ :: _ :: x), y. split; [reflexivity|].
    split; [|split; [exact Fy|discriminate]]. repeat (constructor; [apply b64_char_token68; lia|]). exact Fx.
Qed.

Theorem C35_basic_auth_round_trip : forall username password,
  ~ In 58 username -> (exists e, utf8_encode (username ++ s ":" ++ password) = Ok e) ->
  exists h, build_authorization_basic username password = Ok h /\
    parse_authorization_basic h = Ok (username, password).
Proof.
  intros u p Nc [e He].
  assert (X : existsb (N.eqb 58) u = false).
  { destruct (existsb (N.eqb 58) u) eqn:Q; [|reflexivity]. apply existsb_exists in Q as (c & Hc & Q). apply N.eqb_eq in Q. subst. contradiction. }
  unfold build_authorization_basic. rewrite X, He. cbn [rbind]. eexists. split; [reflexivity|].
  unfold parse_authorization_basic.
  assert (Ne : e <> []).
  { intros ->. apply utf8_decode_encode in He. cbn in He. apply ok_inj in He. destruct u; discriminate. }
  destruct (b64encode_shape e) as (x & y & E & Fx & Fy & Nx). specialize (Nx Ne).
  set (h := s "Basic " ++ map b2n (b64encode e)).
  assert (Tb : parse_token h (s "Authorization") h = Ok (s "Basic", s " " ++ map b2n (b64encode e))).
  { unfold h at 2. change (s "Basic " ++ ?t) with (s "Basic" ++ (s " " ++ t)). apply parse_token_exact; [|reflexivity].
    apply token_class. split; [discriminate|repeat constructor]. }
  rewrite Tb. cbn [rbind]. change (negb (str_eqb (lower (s "Basic")) (s "basic"))) with false. cbn iota.
  change (negb (peek_is 32 (s " " ++ map b2n (b64encode e)))) with false. cbn iota.
  change (tl (s " " ++ map b2n (b64encode e))) with (map b2n (b64encode e)).
  assert (Pt : parse_token68 h (s "Authorization") (map b2n (b64encode e)) = Ok (map b2n (b64encode e), [])).
  { unfold parse_token68. rewrite E at 1.
    rewrite (span_exact is_token68_char x y).
    - destruct x as [|c x]; [contradiction|]. rewrite <- (app_nil_r y), (span_exact (N.eqb 61) y []); [|revert Fy; apply Forall_impl; intros ? ->; reflexivity|exact I].
      now rewrite E.
    - revert Fx. apply Forall_impl. tauto.
    - destruct Fy as [|c y -> Fy]; [exact I|reflexivity]. }
  rewrite Pt. cbn [rbind parse_end].
  assert (U : utf8_encode (map b2n (b64encode e)) = Ok (b64encode e)).
  { rewrite utf8_encode_ascii.
    - rewrite map_map. f_equal. rewrite <- (map_id (b64encode e)) at 2. apply map_ext. intros. apply n2b_b2n.
    - rewrite E. apply Forall_app. split; [revert Fx; apply Forall_impl; tauto|]. revert Fy. apply Forall_impl. intros ? ->. reflexivity. }
  rewrite U. cbn [rbind]. rewrite b64decode_encode. rewrite (utf8_decode_encode _ _ He). cbn [rbind].
  now rewrite (split_colon_exact u p X).
Qed.
Example C35_applies : build_authorization_basic (s "Aladdin") (s "open:sesame") = Ok (s "Basic QWxhZGRpbjpvcGVuOnNlc2FtZQ==").
Proof. vm_compute. reflexivity. Qed.

Print Assumptions C31_extension_header_round_trip.
Print Assumptions C31_empty_refuted.
Print Assumptions C32_subprotocol_header_round_trip.
Print Assumptions C33_quotable.
Print Assumptions C33_quoted_string_round_trip_partial.
Print Assumptions C33_quoted_string_refuted.
Print Assumptions C34_connection_grammar.
Print Assumptions C34_upgrade_grammar.
Print Assumptions C34_subprotocol_grammar.
Print Assumptions C34_extension_grammar.
Print Assumptions C35_basic_auth_round_trip.
