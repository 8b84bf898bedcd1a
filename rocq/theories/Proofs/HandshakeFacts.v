(* Facts about Model/Server.v and Model/Client.v: when each check of the handshake passes. *)
From Verif Require Import Base.Prelude Base.PreludeFacts Base.Utf8 Base.Utf8Facts Base.Base64 Base.Base64Facts
  Base.DecimalFacts Model.Utils Model.Datastructures Model.Headers Model.Streams Model.Http11 Model.Frames
  Model.Connection Model.Handshake Model.Server Model.Client
  Spec.Rfc7230 Spec.Multimap Spec.Http1 Spec.Handshake
  Proofs.HeadersFacts Proofs.MultimapFacts Proofs.KeyFacts Properties.HeaderGrammar.
Local Open Scope N_scope.

(* ---- text ---- *)

Lemma scalar_encodes c : scalar c <-> exists e, utf8_encode_char c = Some e.
Proof.
  unfold scalar, utf8_encode_char.
  repeat match goal with |- context [?a <? ?y] => destruct (N.ltb_spec a y); cbn [andb] end;
  repeat match goal with |- context [?a <=? ?y] => destruct (N.leb_spec a y); cbn [andb] end;
  (split; [intros Hs; try (eexists; reflexivity); lia|intros [e He]; try discriminate He; lia]).
Qed.
Lemma unicode_encodes x : unicode_text x <-> exists e, utf8_encode x = Ok e.
Proof.
  induction x as [|c x IH]; cbn [utf8_encode]; [split; [eauto|constructor]|]. split.
  - intros H. inversion H as [|? ? Hc Hx]; subst. apply scalar_encodes in Hc as [e ->]. apply IH in Hx as [e' ->]. eauto.
  - intros [e H]. destruct (utf8_encode_char c) eqn:C; [|discriminate]. destruct (utf8_encode x) eqn:Ex; [|discriminate].
    constructor; [apply scalar_encodes; eauto|apply IH; eauto].
Qed.
Lemma ascii_unicode x : Forall (fun c => c < 128) x -> unicode_text x.
Proof. apply Forall_impl. unfold scalar. lia. Qed.
Lemma ascii_name x : forallb (fun c => c <? 128) x = true -> unicode_text x.
Proof. intros H. apply ascii_unicode. rewrite forallb_forall in H. apply Forall_forall. intros c I. now apply N.ltb_lt, H. Qed.
Lemma unicode_app x y : unicode_text x -> unicode_text y -> unicode_text (x ++ y).
Proof. intros. apply Forall_app. auto. Qed.
Lemma token_unicode x : token x -> unicode_text x.
Proof.
  intros [_ F]. revert F. apply Forall_impl. unfold tchar, scalar. intros c [H|[H|[H|H]]]; try lia.
  cbn in H. repeat (destruct H as [<-|H]; [lia|]). contradiction.
Qed.
Lemma join_unicode sep l : unicode_text sep -> Forall unicode_text l -> unicode_text (join sep l).
Proof.
  intros Hs. induction 1 as [|x l Hx F IH]; cbn [join]; [constructor|].
  destruct l; [exact Hx|]. apply unicode_app; [exact Hx|]. now apply unicode_app.
Qed.

(* ---- list headers ---- *)

Section ParseAll.
Context {A : Type} (parse : str -> result (list A)) (name : str) (item : str -> A -> Prop).
Context (G : parses_per_grammar parse name item).
Lemma parse_all_iff vs : forall l, parse_all parse vs = Ok l <-> combined item vs l.
Proof.
  induction vs as [|v vs IH]; intros l; cbn [parse_all].
  - split; [intros [= <-]; constructor|intros H; inversion H; reflexivity].
  - split.
    + destruct (parse v) as [x|] eqn:P; cbn [rbind]; [|discriminate]. destruct (parse_all parse vs) as [y|] eqn:Q; cbn [rbind]; [|discriminate].
      intros [= <-]. constructor; [now apply (G v)|now apply IH].
    + intros H. inversion H as [|? ? x y Hv Hvs]; subst. apply (G v) in Hv. apply IH in Hvs. now rewrite Hv, Hvs.
Qed.
Lemma parse_all_fails vs e : parse_all parse vs = Raise e ->
  (forall l, ~ combined item vs l) /\
  exists v error pos, In v vs /\ Forall (fun c => c < 128) error /\ e = InvalidHeaderFormat name error v pos.
Proof.
  intros H. split; [intros l C; apply parse_all_iff in C; congruence|].
  induction vs as [|v vs IH]; cbn [parse_all] in H; [discriminate|].
  destruct (G v) as [_ [[x P]|(error & pos & Ae & P)]]; rewrite P in H; cbn [rbind] in H.
  - destruct (parse_all parse vs) eqn:Q; cbn [rbind] in H; [discriminate|]. destruct (IH H) as (v' & error & pos & I & R). exists v', error, pos. split; [now right|exact R].
  - apply (f_equal (fun r => match r with Raise e => e | _ => e end)) in H. subst e. exists v, error, pos. split; [now left|auto].
Qed.
Lemma combined_fun vs l l' : combined item vs l -> combined item vs l' -> l = l'.
Proof. intros H H'. apply parse_all_iff in H, H'. rewrite H in H'. now apply ok_inj in H'. Qed.
End ParseAll.

Lemma values_unicode l k : unicode_headers l -> Forall unicode_text (values l k).
Proof.
  intros U. unfold values. apply Forall_map. unfold unicode_headers in U. rewrite Forall_forall in *. intros kv I.
  apply filter_In in I. now apply U.
Qed.

Lemma combined_tokens vs l : combined token_item vs l -> Forall token l.
Proof.
  induction 1 as [|v vs x y Hv Hvs IH]; [constructor|]. apply Forall_app. split; [|exact IH].
  destruct Hv as (z & w & _ & _ & Hl). clear -Hl.
  assert (M : forall r l, more token_item r l -> Forall token l).
  { induction 1; auto. constructor; [|assumption]. destruct H1 as [T ->]. exact T. }
  induction Hl as [w r l Hw Hl IH|x a r l Hi Hm]; [exact IH|]. constructor; [|now apply (M r)]. destruct Hi as [T ->]. exact T.
Qed.
Lemma combined_protocols vs l : combined protocol_item vs l -> Forall unicode_text l.
Proof.
  assert (I : forall x a, protocol_item x a -> unicode_text a).
  { intros x a [-> [T|(y & z & T1 & T2 & ->)]]; [now apply token_unicode|].
    apply unicode_app; [now apply token_unicode|]. apply unicode_app; [repeat constructor; unfold scalar; lia|now apply token_unicode]. }
  induction 1 as [|v vs x y Hv Hvs IH]; [constructor|]. apply Forall_app. split; [|exact IH].
  destruct Hv as (z & w & _ & _ & Hl). clear -Hl I.
  assert (M : forall r l, more protocol_item r l -> Forall unicode_text l).
  { induction 1; auto. constructor; [|assumption]. eapply I; eauto. }
  induction Hl as [w r l Hw Hl IH|x a r l Hi Hm]; [exact IH|]. constructor; [eapply I; eauto|now apply (M r)].
Qed.

(* the message of an exception can be sent *)
Lemma header_str_unicode name value : unicode_text name ->
  (forall v, value = Some v -> unicode_text v) -> unicode_text (invalid_header_str name value).
Proof.
  intros Hn Hv. unfold invalid_header_str.
  destruct value as [[|c v]|].
  - repeat apply unicode_app; try exact Hn; apply ascii_name; reflexivity.
  - repeat apply unicode_app; try exact Hn; try (apply ascii_name; reflexivity). now apply Hv.
  - repeat apply unicode_app; try exact Hn; apply ascii_name; reflexivity.
Qed.
Lemma format_str_unicode name error v pos : unicode_text name -> Forall (fun c => c < 128) error -> unicode_text v ->
  unicode_text (exn_str (InvalidHeaderFormat name error v pos)).
Proof.
  intros Hn He Hv. cbn [exn_str]. apply header_str_unicode; [exact Hn|]. intros v' Hv'. apply some_inj in Hv'. subst v'.
  repeat apply unicode_app; try exact Hv; try (apply ascii_name; reflexivity); apply ascii_unicode; [exact He|].
  eapply Forall_impl; [|apply str_of_N_digits]. cbn beta. intros; lia.
Qed.

(* ---- Connection and Upgrade ---- *)

Definition is_upgrade_exn (e : exn) : bool := match e with InvalidUpgrade _ _ => true | _ => false end.
Definition is_origin_exn (e : exn) : bool := match e with InvalidOrigin _ => true | _ => false end.
(* answered with 400 *)
Definition bad_request (e : exn) : Prop :=
  is_invalid_handshake e = true /\ is_upgrade_exn e = false /\ is_origin_exn e = false.

Lemma existsb_word w l : existsb (fun v => str_eqb (lower v) w) l = true <-> Exists (is_word w) l.
Proof.
  rewrite existsb_exists, Exists_exists. unfold is_word. split; intros (x & I & H); exists x; (split; [exact I|]); now apply str_eqb_eq.
Qed.


Lemma check_upgrade_view l :
  match check_upgrade (headers_of l) with
  | Ok _ => connection_upgrade l /\ upgrade_websocket l /\ ~ bad_upgrade l
  | Raise e =>
      ~ (connection_upgrade l /\ upgrade_websocket l) /\
      ((is_upgrade_exn e = true /\ bad_upgrade l) \/ (bad_request e /\ ~ bad_upgrade l)) /\
      (unicode_headers l -> unicode_text (exn_str e))
  end.
Proof.
  unfold check_upgrade. rewrite !(rep_get_all _ _ _ (rep_of l)).
  set (cs := values l (s "Connection")) in *. set (us := values l (s "Upgrade")) in *.
  assert (Ec : values l (s "Connection") = cs) by reflexivity. assert (Eu : values l (s "Upgrade") = us) by reflexivity.
  clearbody cs us.
  destruct (parse_all parse_connection cs) as [os|e] eqn:Pc; cbn [rbind].
  2:{ apply (parse_all_fails _ _ _ C34_connection_grammar) in Pc as (Nc & v & error & pos & I & Ha & ->). split; [|split].
      - intros [(os & C & _) _]. rewrite Ec in C. now apply Nc in C.
      - right. split; [split; [reflexivity|split; reflexivity]|]. intros [(os & C & _)|[(os & C & _) _]]; rewrite Ec in C; now apply Nc in C.
      - intros U. apply format_str_unicode; [now apply ascii_name|exact Ha|].
        apply (values_unicode l (s "Connection")) in U. rewrite Ec, Forall_forall in U. auto. }
  apply (parse_all_iff _ _ _ C34_connection_grammar) in Pc.
  assert (Fc : forall os', combined token_item cs os' -> os' = os).
  { intros os' H. now apply (combined_fun _ _ _ C34_connection_grammar cs). }
  destruct (existsb _ os) eqn:Ex; cbn [negb].
  2:{ assert (Nx : ~ Exists (is_word (s "upgrade")) os) by (intros H; apply existsb_word in H; congruence).
      split; [|split].
      - intros [(os' & C & H) _]. rewrite Ec in C. apply Fc in C. now subst.
      - left. split; [reflexivity|]. left. exists os. rewrite Ec. auto.
      - intros _. cbn [exn_str]. apply header_str_unicode; [now apply ascii_name|]. intros v Hv.
        unfold join_or_none in Hv. destruct os as [|o os0]; [discriminate|]. apply some_inj in Hv. subst v.
        apply join_unicode; [now apply ascii_name|]. apply combined_tokens in Pc. revert Pc. apply Forall_impl, token_unicode. }
  apply existsb_word in Ex.
  assert (Cu : connection_upgrade l) by (exists os; rewrite Ec; auto).
  assert (Nb1 : ~ exists options, combined token_item (values l (s "Connection")) options /\ ~ Exists (is_word (s "upgrade")) options).
  { intros (os' & C & H). rewrite Ec in C. apply Fc in C. now subst. }
  destruct (parse_all parse_upgrade us) as [ps|e] eqn:Pu; cbn [rbind].
  2:{ apply (parse_all_fails _ _ _ C34_upgrade_grammar) in Pu as (Nc & v & error & pos & I & Ha & ->). split; [|split].
      - intros [_ (p & C & _)]. rewrite Eu in C. now apply Nc in C.
      - right. split; [split; [reflexivity|split; reflexivity]|]. intros [H|[_ (ps & C & _)]]; [contradiction|]. rewrite Eu in C; now apply Nc in C.
      - intros U. apply format_str_unicode; [now apply ascii_name|exact Ha|].
        apply (values_unicode l (s "Upgrade")) in U. rewrite Eu, Forall_forall in U. auto. }
  apply (parse_all_iff _ _ _ C34_upgrade_grammar) in Pu.
  assert (Fu : forall ps', combined protocol_item us ps' -> ps' = ps).
  { intros ps' H. now apply (combined_fun _ _ _ C34_upgrade_grammar us). }
  assert (Bad : (~ exists p, ps = [p] /\ is_word (s "websocket") p) ->
    let e := InvalidUpgrade (s "Upgrade") (join_or_none ps) in
    ~ (connection_upgrade l /\ upgrade_websocket l) /\
      ((is_upgrade_exn e = true /\ bad_upgrade l) \/ (bad_request e /\ ~ bad_upgrade l)) /\
      (unicode_headers l -> unicode_text (exn_str e))).
  { intros Np e. split; [|split].
    - intros [_ (p & C & H)]. rewrite Eu in C. apply Fu in C. apply Np. exists p. auto.
    - left. split; [reflexivity|]. right. split; [exact Cu|]. exists ps. rewrite Eu. auto.
    - intros _. cbn [exn_str e]. apply header_str_unicode; [now apply ascii_name|]. intros v Hv.
      unfold join_or_none in Hv. destruct ps as [|o os0]; [discriminate|]. apply some_inj in Hv. subst v.
      apply join_unicode; [now apply ascii_name|]. now apply combined_protocols in Pu. }
  destruct ps as [|p [|p' ps]].
  - apply Bad. intros (p & H & _). discriminate.
  - destruct (str_eqb (lower p) (s "websocket")) eqn:W.
    + apply str_eqb_eq in W. split; [exact Cu|]. split; [exists p; rewrite Eu; auto|].
      intros [H|[_ (ps & C & H)]]; [contradiction|]. rewrite Eu in C. apply Fu in C. subst. apply H. exists p. auto.
    + apply Bad. intros (p0 & [= <-] & H). unfold is_word in H. rewrite H in W. discriminate.
  - apply Bad. intros (p0 & H & _). discriminate.
Qed.

(* ---- key, version, origin ---- *)

Lemma get_single_view l name : match get_single (headers_of l) name with
  | Ok v => values l name = [v]
  | Raise e => (values l name = [] \/ exists v v' vs, values l name = v :: v' :: vs) /\
      bad_request e /\ (unicode_text name -> unicode_text (exn_str e))
  end.
Proof.
  unfold get_single. rewrite (rep_getitem _ _ _ (rep_of l)). destruct (values l name) as [|v [|v' vs]]; [| reflexivity|].
  - split; [now left|]. split; [split; [reflexivity|split; reflexivity]|]. intros U. cbn [exn_str]. apply header_str_unicode; [exact U|discriminate].
  - split; [right; eauto|]. split; [split; [reflexivity|split; reflexivity]|]. intros U. cbn [exn_str]. apply header_str_unicode; [exact U|].
    intros x Hx. apply some_inj in Hx. subst x. repeat apply unicode_app; try exact U; now apply ascii_name.
Qed.

Lemma request_key_view l : match request_key (headers_of l) with
  | Ok key => values l (s "Sec-WebSocket-Key") = [key] /\ valid_key key
  | Raise e => ~ key_header l /\
      (bad_request e \/ (e = UnicodeEncodeError /\ ~ unicode_headers l)) /\
      (unicode_headers l -> unicode_text (exn_str e))
  end.
Proof.
  unfold request_key. pose proof (get_single_view l (s "Sec-WebSocket-Key")) as G.
  destruct (get_single _ _) as [key|e]; cbn [rbind].
  2:{ destruct G as (V & B & U). split; [|split; [now left|intros _; apply U; now apply ascii_name]].
      intros (k & E & _). rewrite E in V. destruct V as [V|(? & ? & ? & V)]; discriminate. }
  assert (Uk : unicode_headers l -> unicode_text key).
  { intros U. apply (values_unicode l (s "Sec-WebSocket-Key")) in U. rewrite G in U. now inversion U. }
  assert (Kk : key_header l -> valid_key key) by (intros (k & E & V); rewrite G in E; now injection E as <-).
  assert (Bad : ~ valid_key key ->
     ~ key_header l /\ (bad_request (InvalidHeaderValue (s "Sec-WebSocket-Key") (Some key)) \/ (InvalidHeaderValue (s "Sec-WebSocket-Key") (Some key) = UnicodeEncodeError /\ ~ unicode_headers l)) /\
      (unicode_headers l -> unicode_text (exn_str (InvalidHeaderValue (s "Sec-WebSocket-Key") (Some key))))).
  { intros N. split; [auto|]. split; [left; split; [reflexivity|split; reflexivity]|]. intros U. cbn [exn_str]. apply header_str_unicode; [now apply ascii_name|].
    intros v [= <-]. auto. }
  destruct (utf8_encode key) as [data|e] eqn:En; cbn [rbind].
  2:{ assert (Hk : ~ unicode_text key) by (intros U; apply unicode_encodes in U as [x Hx]; congruence).
      assert (e = UnicodeEncodeError) as ->.
      { clear -En. induction key as [|c key IH]; cbn [utf8_encode] in En; [discriminate|].
        destruct (utf8_encode_char c); [|congruence]. destruct (utf8_encode key); [discriminate|auto]. }
      split; [|split; [right; split; [reflexivity|auto]|intros; constructor]].
      intros H. apply Kk, key_checked in H as (x & _ & Hx & _). congruence. }
  destruct (b64decode_validate data) as [raw|e] eqn:De.
  - destruct (length raw =? 16)%nat eqn:L.
    + apply Nat.eqb_eq in L. split; [exact G|]. apply key_checked. eauto.
    + apply Bad. intros V. apply key_checked in V as (d & r & E1 & E2 & E3). rewrite En in E1. apply ok_inj in E1. subst d. rewrite De in E2. apply ok_inj in E2. subst r.
      apply Nat.eqb_neq in L. contradiction.
  - pose proof (b64decode_validate_error _ _ De). subst e. apply Bad. intros V. apply key_checked in V as (d & r & E1 & E2 & E3). rewrite En in E1. apply ok_inj in E1. subst d. congruence.
Qed.

Lemma request_version_view l : match request_version (headers_of l) with
  | Ok _ => version_header l
  | Raise e => ~ version_header l /\ bad_request e /\ (unicode_headers l -> unicode_text (exn_str e))
  end.
Proof.
  unfold request_version, version_header. pose proof (get_single_view l (s "Sec-WebSocket-Version")) as G.
  destruct (get_single _ _) as [v|e]; cbn [rbind].
  2:{ destruct G as (V & B & U). split; [|split; [exact B|intros _; apply U; now apply ascii_name]].
      intros E. rewrite E in V. destruct V as [V|(? & ? & ? & V)]; discriminate. }
  destruct (str_eqb v (s "13")) eqn:E; [apply str_eqb_eq in E; now subst|].
  split; [intros H; rewrite G in H; injection H as ->; discriminate|]. split; [split; [reflexivity|split; reflexivity]|].
  intros U. cbn [exn_str]. apply header_str_unicode; [now apply ascii_name|]. intros x [= <-].
  apply (values_unicode l (s "Sec-WebSocket-Version")) in U. rewrite G in U. now inversion U.
Qed.

Lemma opt_str_eqb_eq x y : opt_str_eqb x y = true <-> x = y.
Proof.
  destruct x, y; cbn [opt_str_eqb]; try (split; congruence). rewrite str_eqb_eq. split; congruence.
Qed.

Section Server.
Context {E : Type} (env : environment) (cfg : server_config E).

Lemma process_origin_view l : match process_origin cfg (headers_of l) with
  | Ok o => has_origin l o /\ allowed (sc_origins cfg) o
  | Raise e =>
      ((is_origin_exn e = true /\ exists o, has_origin l o /\ ~ allowed (sc_origins cfg) o) \/
       (bad_request e /\ forall o, ~ has_origin l o)) /\
      (unicode_headers l -> unicode_text (exn_str e))
  end.
Proof.
  unfold process_origin, headers_get. rewrite (rep_getitem _ _ _ (rep_of l)).
  assert (P : forall o, has_origin l o -> (unicode_headers l -> forall v, o = Some v -> unicode_text v) ->
     match match sc_origins cfg with None => Ok o | Some os => if existsb (opt_str_eqb o) os then Ok o else Raise (InvalidOrigin o) end with
     | Ok o => has_origin l o /\ allowed (sc_origins cfg) o
     | Raise e =>
      ((is_origin_exn e = true /\ exists o, has_origin l o /\ ~ allowed (sc_origins cfg) o) \/
       (bad_request e /\ forall o, ~ has_origin l o)) /\ (unicode_headers l -> unicode_text (exn_str e))
     end).
  { intros o Ho U. unfold allowed. destruct (sc_origins cfg) as [os|]; [|auto]. destruct (existsb _ os) eqn:Ex.
    - split; [exact Ho|]. apply existsb_exists in Ex as (x & I & Q). apply opt_str_eqb_eq in Q. now subst.
    - split.
      + left. split; [reflexivity|]. exists o. split; [exact Ho|]. intros I.
        assert (existsb (opt_str_eqb o) os = true); [|congruence]. apply existsb_exists. exists o. split; [exact I|now apply opt_str_eqb_eq].
      + intros Uh. cbn [exn_str]. apply header_str_unicode; [now apply ascii_name|]. now apply U. }
  destruct (values l (s "Origin")) as [|v [|v' vs]] eqn:V.
  - apply P; [exact V|discriminate].
  - apply (P (Some v)); [exact V|]. intros U x [= <-]. apply (values_unicode l (s "Origin")) in U. rewrite V in U. now inversion U.
  - split.
    + right. split; [split; [reflexivity|split; reflexivity]|]. intros [o|] H; unfold has_origin in H; rewrite V in H; discriminate.
    + intros _. now apply ascii_name.
Qed.

(* ---- extensions and subprotocols ---- *)

(* an extension factory raises only NegotiationError *)
Definition polite_server (f : server_factory E) : Prop :=
  forall p acc e, sf_process_request_params f p acc = Raise e -> is_negotiation_error e = true.
Definition polite_servers (o : option (list (server_factory E))) : Prop :=
  forall fs f, o = Some fs -> In f fs -> polite_server f.

Lemma match_factory_total fs name ps acc : (forall f, In f fs -> polite_server f) ->
  exists x, match_factory fs name ps acc = Ok x.
Proof.
  induction fs as [|f fs IH]; intros P; cbn [match_factory]; [eauto|].
  assert (IH' := IH (fun f I => P f (or_intror I))). destruct (negb _); [exact IH'|].
  destruct (sf_process_request_params f ps acc) as [x|e] eqn:Q; [eauto|]. rewrite (P f (or_introl eq_refl) _ _ _ Q). exact IH'.
Qed.
Lemma match_extensions_total fs offers : (forall f, In f fs -> polite_server f) -> forall ha acc,
  exists x, match_extensions fs offers ha acc = Ok x.
Proof.
  intros P. induction offers as [|[n p] offers IH]; intros ha acc; cbn [match_extensions]; [eauto|].
  destruct (match_factory_total fs n p acc P) as [[[rp x]|] ->]; cbn [rbind]; apply IH.
Qed.

Lemma process_extensions_view l : polite_servers (sc_extensions cfg) ->
  match process_extensions cfg (headers_of l) with
  | Ok _ => offers_parse (sc_extensions cfg) extension_item l (s "Sec-WebSocket-Extensions")
  | Raise e => ~ offers_parse (sc_extensions cfg) extension_item l (s "Sec-WebSocket-Extensions") /\
      bad_request e /\ (unicode_headers l -> unicode_text (exn_str e))
  end.
Proof.
  intros P. unfold process_extensions, offers_parse. rewrite (rep_get_all _ _ _ (rep_of l)).
  set (vs := values l (s "Sec-WebSocket-Extensions")). assert (Ev : values l (s "Sec-WebSocket-Extensions") = vs) by reflexivity. clearbody vs.
  destruct vs as [|v vs]; [intros _; exists []; constructor|].
  destruct (sc_extensions cfg) as [[|f fs]|] eqn:Sx.
  - cbn [rbind]. intros (x & t & H). discriminate.
  - destruct (parse_all parse_extension (v :: vs)) as [offers|e] eqn:Pa; cbn [rbind].
    + destruct (match_extensions_total (f :: fs) offers (fun g I => P (f :: fs) g eq_refl I) [] []) as [[eh acc] ->]. cbn [rbind].
      intros _. exists offers. now apply (parse_all_iff _ _ _ C34_extension_grammar).
    + apply (parse_all_fails _ _ _ C34_extension_grammar) in Pa as (Nc & v' & error & pos & I & Ha & ->).
      split; [|split; [split; [reflexivity|split; reflexivity]|]].
      * intros H. destruct H as [offers H]; [now exists f, fs|]. now apply Nc in H.
      * intros U. apply format_str_unicode; [now apply ascii_name|exact Ha|].
        apply (values_unicode l (s "Sec-WebSocket-Extensions")) in U. rewrite Ev, Forall_forall in U. auto.
  - cbn [rbind]. intros (x & t & H). discriminate.
Qed.

Lemma process_subprotocol_view l :
  match process_subprotocol env cfg (headers_of l) with
  | Ok _ => offers_parse (sc_subprotocols cfg) token_item l (s "Sec-WebSocket-Protocol")
  | Raise e => ~ offers_parse (sc_subprotocols cfg) token_item l (s "Sec-WebSocket-Protocol") /\
      bad_request e /\ (unicode_headers l -> unicode_text (exn_str e))
  end.
Proof.
  unfold process_subprotocol, offers_parse. rewrite (rep_get_all _ _ _ (rep_of l)).
  set (vs := values l (s "Sec-WebSocket-Protocol")). assert (Ev : values l (s "Sec-WebSocket-Protocol") = vs) by reflexivity. clearbody vs.
  destruct vs as [|v vs]; [intros _; exists []; constructor|].
  destruct (sc_subprotocols cfg) as [[|f fs]|] eqn:Sx.
  - intros (x & t & H). discriminate.
  - destruct (parse_all parse_subprotocol (v :: vs)) as [offers|e] eqn:Pa; cbn [rbind].
    + intros _. exists offers. now apply (parse_all_iff _ _ _ C34_subprotocol_grammar).
    + apply (parse_all_fails _ _ _ C34_subprotocol_grammar) in Pa as (Nc & v' & error & pos & I & Ha & ->).
      split; [|split; [split; [reflexivity|split; reflexivity]|]].
      * intros H. destruct H as [offers H]; [now exists f, fs|]. now apply Nc in H.
      * intros U. apply format_str_unicode; [now apply ascii_name|exact Ha|].
        apply (values_unicode l (s "Sec-WebSocket-Protocol")) in U. rewrite Ev, Forall_forall in U. auto.
  - intros (x & t & H). discriminate.
Qed.

(* ---- the request ---- *)

Definition valid_for (l : pairs) : Prop :=
  valid_request (sc_origins cfg) (sc_extensions cfg) (sc_subprotocols cfg) l.

Lemma has_origin_fun l o o' : has_origin l o -> has_origin l o' -> o = o'.
Proof. unfold has_origin. intros H H'. rewrite H in H'. destruct o, o'; congruence. Qed.

Lemma process_request_view req l (c : conn E) : req_headers req = headers_of l -> polite_servers (sc_extensions cfg) ->
  match process_request env cfg req c with
  | (c', Ok (key, eh, sp)) =>
      valid_for l /\ values l (s "Sec-WebSocket-Key") = [key] /\ valid_key key /\
      exists origin exts, has_origin l origin /\ allowed (sc_origins cfg) origin /\
        process_extensions cfg (headers_of l) = Ok (eh, exts) /\ process_subprotocol env cfg (headers_of l) = Ok sp /\
        c' = set_subprotocol (set_exts (set_origin c origin) exts) sp
  | (c', Raise e) =>
      ~ valid_for l /\ (unicode_headers l -> unicode_text (exn_str e)) /\
      (exists origin exts, c' = set_exts (set_origin c origin) exts) /\
      ((is_upgrade_exn e = true /\ bad_upgrade l) \/ (is_origin_exn e = true /\ bad_origin (sc_origins cfg) l) \/
       (bad_request e /\ ~ bad_upgrade l /\ ~ bad_origin (sc_origins cfg) l) \/
       (e = UnicodeEncodeError /\ ~ unicode_headers l))
  end.
Proof.
  intros Hh P. unfold process_request. rewrite Hh.
  assert (Id : exists origin exts, c = set_exts (set_origin c origin) exts).
  { exists (c_origin c), (c_exts c). now destruct c. }
  pose proof (check_upgrade_view l) as Vu. destruct (check_upgrade (headers_of l)) as [[]|e]; cbn [rbind].
  2:{ destruct Vu as (N & C & U). split; [intros []; auto|]. split; [exact U|]. split; [exact Id|].
      destruct C as [[H1 H2]|[H1 H2]]; [left; auto|]. right. right. left. split; [exact H1|]. split; [exact H2|].
      intros (H3 & H4 & _). auto. }
  destruct Vu as (Vc & Vu & Nb).
  pose proof (request_key_view l) as Vk. destruct (request_key (headers_of l)) as [key|e]; cbn [rbind].
  2:{ destruct Vk as (N & C & U). split; [intros []; auto|]. split; [exact U|]. split; [exact Id|].
      destruct C as [H|H]; [|right; right; right; exact H]. right. right. left. split; [exact H|]. split; [exact Nb|].
      intros (_ & _ & H3 & _). auto. }
  destruct Vk as [Vk Kk]. assert (Kh : key_header l) by (exists key; auto).
  pose proof (request_version_view l) as Vv. destruct (request_version (headers_of l)) as [[]|e]; cbn [rbind].
  2:{ destruct Vv as (N & C & U). split; [intros []; auto|]. split; [exact U|]. split; [exact Id|].
      right. right. left. split; [exact C|]. split; [exact Nb|]. intros (_ & _ & _ & H & _). auto. }
  pose proof (process_origin_view l) as Vo. destruct (process_origin cfg (headers_of l)) as [o|e]; cbn [rbind].
  2:{ destruct Vo as (C & U). split; [|split; [exact U|split; [exact Id|]]].
      - intros [_ _ _ _ (o & H1 & H2) _ _]. destruct C as [(_ & o' & H3 & H4)|(_ & H)]; [|now apply H in H1].
        rewrite (has_origin_fun l o o' H1 H3) in H2. auto.
      - destruct C as [(H & o' & H3 & H4)|(B & H)].
        + right. left. split; [exact H|]. split; [exact Vc|]. split; [exact Vu|]. split; [exact Kh|]. split; [exact Vv|]. eauto.
        + right. right. left. split; [exact B|]. split; [exact Nb|]. intros (_ & _ & _ & _ & o' & H' & _). now apply H in H'. }
  destruct Vo as [Vo Ao].
  assert (No : ~ bad_origin (sc_origins cfg) l).
  { intros (_ & _ & _ & _ & o' & H3 & H4). rewrite (has_origin_fun l o o' Vo H3) in Ao. auto. }
  pose proof (process_extensions_view l P) as Ve. destruct (process_extensions cfg (headers_of l)) as [[eh exts]|e] eqn:Pe.
  2:{ destruct Ve as (N & C & U). split; [intros []; auto|]. split; [exact U|]. split; [exists o, (c_exts c); now destruct c|]. auto 6. }
  pose proof (process_subprotocol_view l) as Vs. destruct (process_subprotocol env cfg (headers_of l)) as [sp|e] eqn:Ps.
  2:{ destruct Vs as (N & C & U). split; [intros []; auto|]. split; [exact U|]. split; [exists o, exts; reflexivity|]. auto 6. }
  split; [constructor; eauto|]. split; [exact Vk|]. split; [exact Kk|]. exists o, exts. auto.
Qed.
End Server.
