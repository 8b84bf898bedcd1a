(* C100: which servers receive the credentials. *)
From Verif Require Import Base.Prelude Base.PreludeFacts Base.Utf8 Spec.Multimap Spec.Handshake Model.Utils Model.Datastructures Model.Headers
  Model.Streams Model.Http11 Model.Connection Model.Handshake Model.Client Model.Uri Model.Connect Model.ConnectRequest
  Proofs.MultimapFacts Proofs.UriFacts Proofs.HandshakeRun Proofs.AcceptFacts Proofs.AgreementFacts Properties.HeaderGrammar Properties.Uri Properties.Redirects.

(* ---- the headers of a request ---- *)

Definition extra_values {E} (cfg : client_config E) (k : str) : list str :=
  values (match cc_extra_headers cfg with Some l => l | None => [] end) k.
Lemma set_defaults_values h l d h' : represents h l -> set_defaults h [d] = Ok h' ->
  exists r, represents h' (l ++ r) /\ (forall k, same_name (fst d) k = false -> values r k = []).
Proof.
  intros R. destruct d as [dk dv]. cbn [set_defaults fst]. unfold headers_setdefault.
  destruct (headers_getitem h dk) as [x|[]]; cbn [rbind]; try discriminate; intros H; apply ok_inj in H; subst h'.
  - exists []. rewrite app_nil_r. split; [exact R|reflexivity].
  - exists [(dk, dv)]. split; [now apply rep_set|]. intros k N. unfold values. cbn [filter fst]. now rewrite N.
Qed.

(* the Authorization header made for credentials *)
Definition authorization (user_info : option (str * str)) (vs : list str) : Prop :=
  match user_info with
  | None => vs = []
  | Some (username, password) => exists v, vs = [v] /\ parse_authorization_basic v = Ok (username, password)
  end.
Lemma request_view {E} env (cfg : client_config E) key req : connect env cfg key = Ok req ->
  exists before after, (forall k, headers_get_all (req_headers req) k = before k ++ extra_values cfg k ++ after k) /\
    authorization (uri_user_info (cc_wsuri cfg)) (before (s "Authorization")) /\ (forall k, same_name (s "User-Agent") k = false -> after k = []) /\
    before (s "Host") = [build_host env (uri_host (cc_wsuri cfg)) (uri_port (cc_wsuri cfg)) (uri_secure (cc_wsuri cfg))].
Proof.
  unfold connect. change headers_empty with (headers_of []). rewrite setitem_of. cbn [app].
  set (h0 := [(s "Host", _)]).
  assert (A : match (match uri_user_info (cc_wsuri cfg) with
      | Some (username, password) => let! v := build_authorization_basic username password in Ok (headers_setitem (headers_of h0) (s "Authorization") v)
      | None => Ok (headers_of h0) end) with Ok h => exists auth, h = headers_of (h0 ++ optional (s "Authorization") auth) /\
          authorization (uri_user_info (cc_wsuri cfg)) (match auth with Some v => [v] | None => [] end) | Raise _ => True end).
  { destruct (uri_user_info (cc_wsuri cfg)) as [[u p]|].
    - destruct (build_authorization_basic u p) as [v|] eqn:B; cbn [rbind]; [|exact Logic.I]. exists (Some v). split; [now rewrite setitem_of|].
      cbn [authorization]. exists v. split; [reflexivity|]. destruct (C35_basic_auth_round_trip u p) as (h & B' & P).
      + unfold build_authorization_basic in B. destruct (existsb (N.eqb 58) u) eqn:X; [discriminate|]. intros I.
        assert (T : existsb (N.eqb 58) u = true) by (apply existsb_exists; exists 58%N; split; [exact I|apply N.eqb_refl]). congruence.
      + unfold build_authorization_basic in B. destruct (existsb (N.eqb 58) u); [discriminate|]. destruct (utf8_encode (u ++ s ":" ++ p)) as [e|]; [eauto|discriminate].
      + rewrite B in B'. apply ok_inj in B'. now subst h.
    - exists None. cbn [optional]. rewrite app_nil_r. split; reflexivity. }
  destruct (match uri_user_info (cc_wsuri cfg) with Some _ => _ | None => _ end) as [h|]; cbn [rbind]; [|discriminate].
  destruct A as (auth & -> & A). unfold set_opt. rewrite set_opt_of, !setitem_of, !set_opt_of.
  set (l1 := (_ ++ optional (s "Sec-WebSocket-Protocol") _)).
  assert (Ex : match cc_extra_headers cfg with Some l => headers_update (headers_of l1) l | None => headers_of l1 end =
    headers_of (l1 ++ match cc_extra_headers cfg with Some l => l | None => [] end)).
  { destruct (cc_extra_headers cfg); [apply update_of|now rewrite app_nil_r]. }
  rewrite Ex. destruct (set_defaults _ _) as [h|] eqn:D; cbn [rbind]; [|discriminate]. intros H. apply ok_inj in H. subst req. cbn [req_headers].
  destruct (set_defaults_values _ _ _ _ (rep_of _) D) as (r & R & V).
  exists (values l1), (values r). split; [|split; [|split]].
  - intros k. rewrite (rep_get_all _ _ _ R), !values_app, <- app_assoc. reflexivity.
  - unfold l1. rewrite !values_app, !optional_values. unfold h0. rewrite !values_cons. cbn - [values optional authorization]. rewrite !app_nil_r. exact A.
  - exact V.
  - unfold l1. rewrite !values_app, !optional_values. unfold h0. rewrite !values_cons. cbn - [values optional authorization build_host]. reflexivity.
Qed.

(* ---- C100 ---- *)

(* The text of the URI of an attempt: the argument of connect(), or the redirect received in the
   previous attempt. *)
Definition source (w : world) (uri : str) (before : list attempt) : option str :=
  match before with
  | [] => Some uri
  | _ => match w before with Redirects u => Some u | _ => None end
  end.
Lemma attempt_source ue w uri args before a after : fst (await_connect ue w uri args) = before ++ [a] ++ after ->
  exists text, source w uri before = Some text /\ parse_uri ue text = Ok (at_uri a).
Proof.
  intros E. destruct before as [|x before] using rev_ind.
  - exists uri. split; [reflexivity|]. unfold await_connect in E. destruct (connect_init ue uri args) as [st|e] eqn:Hi; [|discriminate].
    unfold connect_init in Hi. destruct (parse_uri ue uri) as [wsuri|]; cbn [rbind] in Hi; [|discriminate].
    match type of Hi with context [rbind ?m _] => destruct m as [ssl|]; cbn [rbind] in Hi; [|discriminate] end. apply ok_inj in Hi.
    change max_redirects_allowed with (S 9) in E. set (n := 9%nat) in E. clearbody n. cbn [connect_loop] in E. destruct (create_connection (cs_connector st)) as [[p tls]|e]; [|discriminate]. cbv zeta in E. cbn [app] in E.
    assert (Eu : cs_wsuri st = wsuri) by now subst st. set (x := Build_attempt _ _ _) in E. clear Hi.
    assert (X : exists r, x :: r = a :: after).
    { destruct (w [x]) as [|u|e]; cbn [fst] in E; [eauto| |eauto]. destruct (handle_redirect ue st u) as [st'|e]; cbn [fst] in E; [|eauto].
      destruct (loop_extends ue w n st' [x]) as [r R]. rewrite R in E. cbn [app] in E. eauto. }
    destruct X as [r X]. injection X as X _. rewrite <- X. unfold x. cbn [at_uri]. now rewrite Eu.
  - clear IHbefore. rewrite <- app_assoc in E. change ([x] ++ [a] ++ after) with ([x; a] ++ after) in E.
    apply C52_follows_redirects in E as (u & W & P & _). exists u. split; [|exact P]. unfold source. rewrite W. now destruct before.
Qed.

(* When connect() makes an attempt, the Authorization header of the request has the credentials
   of the URI of this attempt, which is the argument of connect() or the redirect that was just
   received; if this URI doesn't have credentials, there's no Authorization header.  The request
   is for the host of this URI.  extra_headers doesn't include Authorization here; see
   C100_extra_headers_refuted. *)
Theorem C100_credentials_of_the_uri : forall E ue w uri args env (cfg : client_config E) key before a after req,
  fst (await_connect ue w uri args) = before ++ [a] ++ after -> attempt_request env cfg a key = Ok req ->
  exists text u, source w uri before = Some text /\ parse_uri ue text = Ok u /\
    (extra_values cfg (s "Authorization") = [] -> authorization (uri_user_info u) (headers_get_all (req_headers req) (s "Authorization"))) /\
    (extra_values cfg (s "Host") = [] -> headers_get_all (req_headers req) (s "Host") = [build_host env (uri_host u) (uri_port u) (uri_secure u)]).
Proof.
  intros E ue w uri args env cfg key before a after req Ea R. destruct (attempt_source _ _ _ _ _ _ _ Ea) as (text & S & P).
  exists text, (at_uri a). split; [exact S|]. split; [exact P|]. destruct (request_view _ _ _ _ R) as (b & c & V & A & N & H). cbn [attempt_config cc_wsuri] in A, H. split.
  - intros X. rewrite V. change (extra_values (attempt_config cfg a)) with (extra_values cfg). rewrite X, N, app_nil_r by reflexivity. cbn [app]. rewrite ?app_nil_r. exact A.
  - intros X. rewrite V, H. change (extra_values (attempt_config cfg a)) with (extra_values cfg). rewrite X, N by reflexivity. reflexivity.
Qed.
(* The credentials in the URI given to connect() aren't sent again after a redirect. *)
Theorem C100_not_forwarded : forall E ue w uri args env (cfg : client_config E) key before a a' after text u req,
  fst (await_connect ue w uri args) = before ++ [a; a'] ++ after -> attempt_request env cfg a' key = Ok req ->
  w (before ++ [a]) = Redirects text -> parse_uri ue text = Ok u -> uri_user_info u = None ->
  extra_values cfg (s "Authorization") = [] -> headers_get_all (req_headers req) (s "Authorization") = [].
Proof.
  intros E ue w uri args env cfg key before a a' after text u req Ea R W P N X.
  change ([a; a'] ++ after) with ([a] ++ [a'] ++ after) in Ea. rewrite app_assoc in Ea.
  destruct (C100_credentials_of_the_uri E _ _ _ _ _ _ _ _ _ _ _ Ea R) as (t' & u' & S & P' & A & _).
  assert (St : t' = text). { unfold source in S. rewrite W in S. destruct (before ++ [a]) eqn:Q; [now destruct before|]. now apply some_inj in S. }
  subst t'. rewrite P in P'. apply ok_inj in P'. subst u'. specialize (A X). rewrite N in A. exact A.
Qed.
(* Unless connect() is told to connect elsewhere, the request is sent to the host and port of the
   URI. *)
Theorem C100_peer : forall ue w uri args, ca_path args = None -> ca_sock args = false -> ca_host args = None -> ca_port args = None ->
  forall a, In a (fst (await_connect ue w uri args)) -> at_peer a = PeerTcp (Some (uri_host (at_uri a))) (Some (uri_port (at_uri a))).
Proof.
  intros ue w uri args Np Ns Nh Nt. destruct (C73_redirect_peer_partial ue w uri args Np Ns) as [F R]. rewrite Nh, Nt in F.
  intros a I. apply in_split in I as (before & after & Ea). revert a after Ea. induction before as [|x before IH] using rev_ind; intros a after Ea.
  - now apply (F a after).
  - rewrite <- app_assoc in Ea. cbn [app] in Ea. destruct (R before x a after Ea) as [Sm Ot]. specialize (IH x (a :: after) Ea).
    destruct (str_eqb_spec' (uri_host (at_uri x)) (uri_host (at_uri a))) as [Eh|Nh'].
    + destruct (Z.eq_dec (uri_port (at_uri x)) (uri_port (at_uri a))) as [Et|Nt'].
      * rewrite Sm by now split. now rewrite IH, Eh, Et.
      * apply Ot. intros [_ ?]. contradiction.
    + apply Ot. intros [? _]. contradiction.
Qed.
(* All requests have the headers given with extra_headers. *)
Theorem C100_extra_headers : forall E ue w uri args env (cfg : client_config E) key a req,
  In a (fst (await_connect ue w uri args)) -> attempt_request env cfg a key = Ok req ->
  forall k, exists before after, headers_get_all (req_headers req) k = before ++ extra_values cfg k ++ after.
Proof.
  intros E ue w uri args env cfg key a req _ R k. destruct (request_view _ _ _ _ R) as (b & c & V & _). exists (b k), (c k). apply V.
Qed.
(* "The headers given with extra_headers are only sent to the host of the URI given to connect()":
   after a redirect to another host or port, they're sent there, whatever they are
   (Authorization, Cookie...). *)
Theorem C100_extra_headers_refuted : forall E ue w uri args env (cfg : client_config E) key before a a' after req k v,
  ca_path args = None -> ca_sock args = false ->
  fst (await_connect ue w uri args) = before ++ [a; a'] ++ after -> ~ same_origin (at_uri a) (at_uri a') ->
  attempt_request env cfg a' key = Ok req -> In v (extra_values cfg k) ->
  at_peer a' = PeerTcp (Some (uri_host (at_uri a'))) (Some (uri_port (at_uri a'))) /\ In v (headers_get_all (req_headers req) k).
Proof.
  intros E ue w uri args env cfg key before a a' after req k v Np Ns Ea So R I. split.
  - destruct (C73_redirect_peer_partial ue w uri args Np Ns) as [_ H]. now apply (H before a a' after Ea).
  - destruct (request_view _ _ _ _ R) as (b & c & V & _). rewrite V. apply in_app_iff. right. apply in_app_iff. now left.
Qed.

Definition in_userinfo (c : N) : Prop := (c < 128)%N /\ c <> 47%N /\ c <> 63%N /\ c <> 35%N.
Lemma partition_forall (P : N -> Prop) c x : Forall P x ->
  Forall P (fst (partition c x)) /\ match snd (partition c x) with Some y => Forall P y | None => True end.
Proof.
  intros F. pose proof (partition_view c x) as V. destruct (partition c x) as [a [y|]]; cbn [fst snd].
  - destruct V as [-> _]. apply Forall_app in F as [F1 F2]. inversion F2; subst. auto.
  - destruct V as [-> _]. auto.
Qed.
Lemma userinfo_forall (P : N -> Prop) netloc a y : Forall P netloc -> userinfo netloc = Some (a, Some y) -> Forall P a /\ Forall P y.
Proof.
  intros F. unfold userinfo. pose proof (rpartition_view 64 netloc) as V. destruct (rpartition 64 netloc) as [[info rest]|]; [|discriminate].
  destruct V as [-> _]. apply Forall_app in F as [F _]. pose proof (partition_forall P 58 info F) as H. intros E. apply some_inj in E. rewrite E in H. exact H.
Qed.
Local Open Scope N_scope.
Lemma quote_delim z x y : delim z -> quote x = Ok y -> ~ In z x -> ~ In z y.
Proof.
  intros Dz. assert (Hz : z < 128 /\ z <> 37 /\ (forall n, hex_digit n <> z \/ 16 <= n)).
  { unfold hex_digit. destruct Dz as [->|[->| ->]]; (split; [reflexivity|]); (split; [discriminate|]); intros n; destruct (N.ltb_spec n 10); lia. }
  unfold quote. destruct (utf8_encode x) as [data|] eqn:E; cbn [rbind]; [|discriminate]. intros H. apply ok_inj in H. subst y. intros N I. apply N. clear N.
  apply in_flat_map in I as (d & Id & I). cbv zeta in I.
  assert (D : b2n d = z).
  { destruct (safe_char (b2n d)).
    - destruct I as [I|[]]. exact I.
    - exfalso. destruct Hz as (_ & Hp & Hx). pose proof (b2n_lt d) as B. unfold percent in I. destruct I as [I|[I|[I|[]]]]; [congruence| |].
      + destruct (Hx (b2n d / 16)) as [H|H]; [contradiction|]. assert (b2n d / 16 < 16) by (apply N.div_lt_upper_bound; lia). lia.
      + destruct (Hx (b2n d mod 16)) as [H|H]; [contradiction|]. assert (b2n d mod 16 < 16) by (apply N.mod_lt; lia). lia. }
  revert data E Id. induction x as [|c x IH]; intros data E Id; [apply ok_inj in E; subst data; destruct Id|].
  cbn [utf8_encode] in E. destruct (utf8_encode_char c) as [l|] eqn:C; [|discriminate].
  destruct (utf8_encode x) as [data'|]; cbn [rbind] in E; [|discriminate]. apply ok_inj in E. subst data.
  apply in_app_iff in Id as [Id|Id]; [|right; now apply (IH data')]. left. unfold utf8_encode_char in C.
  destruct (N.ltb_spec c 128).
  - apply some_inj in C. subst l. destruct Id as [<-|[]]. rewrite b2n_n2b, N.mod_small in D by lia. exact D.
  - assert (G : forall n, 128 <= n < 256 -> b2n (n2b n) <> z) by (intros n Hn; rewrite b2n_n2b, N.mod_small by lia; lia).
    assert (M : forall n, 128 <= 128 + n mod 64 < 256) by (intros n; pose proof (N.mod_lt n 64); lia).
    destruct (N.ltb_spec c 2048).
    { apply some_inj in C. subst l. destruct Id as [<-|[<-|[]]]; exfalso; revert D; apply G; [|apply M].
      assert (c / 64 < 32) by (apply N.div_lt_upper_bound; lia). lia. }
    destruct ((55296 <=? c) && (c <? 57344))%bool; [discriminate|].
    destruct (N.ltb_spec c 65536).
    { apply some_inj in C. subst l. destruct Id as [<-|[<-|[<-|[]]]]; exfalso; revert D; apply G; [|apply M|apply M].
      assert (c / 4096 < 16) by (apply N.div_lt_upper_bound; lia). lia. }
    destruct (N.ltb_spec c 1114112); [|discriminate].
    apply some_inj in C. subst l. destruct Id as [<-|[<-|[<-|[<-|[]]]]]; exfalso; revert D; apply G; [|apply M|apply M|apply M].
    assert (c / 262144 < 5) by (apply N.div_lt_upper_bound; lia). lia.
Qed.

Lemma clean_ascii x : is_ascii x = true -> is_ascii (clean x) = true.
Proof.
  unfold is_ascii. rewrite !forallb_forall. intros H c I. apply H. unfold clean in I. apply filter_In in I as [I _].
  clear H. induction x as [|d x IH]; [exact I|]. cbn [lstrip_control] in I. destruct (d <=? 32); [right; auto|exact I].
Qed.
Lemma urlsplit_ascii ue uri scheme netloc path query fragment : urlsplit ue uri = Ok (scheme, netloc, path, query, fragment) -> is_ascii uri = true ->
  scheme <> [] -> Forall (fun c => c < 128) netloc.
Proof.
  intros Us A Ns. apply urlsplit_view in Us as (sch & q & f & _ & _ & _ & _ & _ & _ & _ & [[-> _]|(C & _ & _)]); [constructor| |exact Ns].
  apply clean_ascii in A. rewrite C in A. unfold is_ascii in A. rewrite forallb_forall in A. apply Forall_forall. intros c I. apply N.ltb_lt, A.
  apply in_app_iff. right. apply in_app_iff. right. apply in_app_iff. now left.
Qed.
(* "Any username, without a colon, and any password can be given in the URI": they can't if they
   contain a slash, a question mark, a number sign, or characters that aren't ASCII.  Such
   characters may be percent-encoded in the URI, but they aren't decoded. *)
Theorem C100_any_credentials_refuted : forall ue uri u username password,
  parse_uri ue uri = Ok u -> uri_user_info u = Some (username, password) -> Forall in_userinfo (username ++ password).
Proof.
  intros ue uri u username password H U. pose proof (fun A => C54_iri ue uri u A H) as Q. unfold parse_uri in H.
  destruct (urlsplit ue uri) as [[[[[scheme netloc] path] query] fragment]|] eqn:Us; cbn [rbind] in H; [|discriminate].
  destruct (negb _) eqn:Sch; [discriminate|]. destruct fragment; [|discriminate]. destruct (hostname ue netloc); [|discriminate].
  destruct (port netloc); cbn [rbind] in H; [|discriminate].
  assert (Nd : Forall (fun c => ~ delim c) netloc).
  { apply urlsplit_view in Us as (sch & q & f & _ & _ & _ & _ & _ & _ & _ & [[-> _]|(_ & F & _)]); [constructor|exact F|]. intros ->. discriminate Sch. }
  match type of H with rbind ?m _ = _ => destruct m as [ui|] eqn:Ui; cbn [rbind] in H; [|discriminate] end.
  assert (Nu : forall n p, ui = Some (n, p) -> Forall (fun c => ~ delim c) n /\ Forall (fun c => ~ delim c) p).
  { intros n p ->. destruct (userinfo netloc) as [[n' [p'|]]|] eqn:E; try discriminate. apply ok_inj, some_inj, pair_equal_spec in Ui as [-> ->]. eapply userinfo_forall; eassumption. }
  assert (Fin : Forall (fun c => c < 128) (username ++ password) -> Forall (fun c => ~ delim c) (username ++ password) -> Forall in_userinfo (username ++ password)).
  { intros F1 F2. apply Forall_forall. intros c I. rewrite Forall_forall in F1, F2. specialize (F1 c I). specialize (F2 c I). unfold in_userinfo, delim in *. repeat split; [exact F1| | |]; intros ->; apply F2; auto. }
  destruct (is_ascii uri) eqn:A.
  - apply ok_inj in H. subst u. cbn [uri_user_info] in U. subst ui. destruct (Nu _ _ eq_refl) as [N1 N2]. apply Fin; [|now apply Forall_app].
    apply urlsplit_ascii in Us; [|exact A|intros ->; discriminate Sch]. destruct (userinfo netloc) as [[n' [p'|]]|] eqn:E; try discriminate. apply ok_inj, some_inj, pair_equal_spec in Ui as [-> ->].
    apply Forall_app. eapply userinfo_forall; eassumption.
  - destruct (Q eq_refl) as [_ Q2]. specialize (Q2 _ _ U). apply Fin; [eapply Forall_impl; [|exact Q2]; cbn; lia|]. clear Q Q2 Fin.
    destruct (ue_idna ue _); cbn [rbind] in H; [|discriminate]. destruct (quote _) as [rn|]; cbn [rbind] in H; [|discriminate].
    destruct ui as [[n p]|]; [|cbn [rbind] in H; apply ok_inj in H; subst u; discriminate]. destruct (Nu _ _ eq_refl) as [N1 N2].
    destruct (quote n) as [n'|] eqn:En; cbn [rbind] in H; [|discriminate]. destruct (quote p) as [p'|] eqn:Ep; cbn [rbind] in H; [|discriminate].
    apply ok_inj in H. subst u. cbn [uri_user_info] in U. apply some_inj, pair_equal_spec in U as [<- <-].
    assert (K : forall x y, quote x = Ok y -> Forall (fun c => ~ delim c) x -> Forall (fun c => ~ delim c) y).
    { intros x y Hq Hx. apply Forall_forall. intros c Ic Dc. apply (quote_delim c x y Dc Hq); [|exact Ic]. intros J. rewrite Forall_forall in Hx. now apply (Hx c J). }
    apply Forall_app. eauto.
Qed.

(* connect("ws://user:secret@one.example/", extra_headers=[("Cookie", "session=1")]), where
   one.example redirects to two.example *)
Definition ex_request_env : environment := {|
  env_date := s "Mon, 01 Jan 2024 00:00:00 GMT"; env_user_agent := s "Python/3.9 websockets/9.1"; env_is_ipv6 := fun _ => false; env_set_order := fun l => l |}.
Definition ex_request_config : client_config unit := {|
  cc_wsuri := {| uri_secure := false; uri_host := []; uri_port := 0%Z; uri_resource_name := []; uri_user_info := None |};
  cc_origin := None; cc_extensions := None; cc_subprotocols := None; cc_extra_headers := Some [(s "Cookie", s "session=1")] |}.
Definition sent_headers (a : attempt) : option (str * list str * list str) :=
  match attempt_request ex_request_env ex_request_config a (s "AAAA") with
  | Ok req => Some (uri_host (at_uri a), headers_get_all (req_headers req) (s "Authorization"), headers_get_all (req_headers req) (s "Cookie"))
  | Raise _ => None
  end.
Example C100_applies :
  map sent_headers (fst (await_connect ex_uri_env to_two (s "ws://user:secret@one.example/") no_args)) =
    [Some (s "one.example", [s "Basic dXNlcjpzZWNyZXQ="], [s "session=1"]); Some (s "two.example", [], [s "session=1"])].
Proof. vm_compute. reflexivity. Qed.

(* a password p/ss, percent-encoded *)
Example C100_any_credentials_applies :
  map sent_headers (fst (await_connect ex_uri_env to_two (s "ws://user:p%2Fss@two.example/") no_args)) <> [] /\
  option_map uri_user_info (match parse_uri ex_uri_env (s "ws://user:p%2Fss@two.example/") with Ok u => Some u | Raise _ => None end) = Some (Some (s "user", s "p%2Fss")) /\
  parse_uri ex_uri_env (s "ws://user:p/ss@two.example/") = Raise ValueError.
Proof. split; [vm_compute; discriminate|]. split; vm_compute; reflexivity. Qed.

Print Assumptions C100_credentials_of_the_uri.
Print Assumptions C100_not_forwarded.
Print Assumptions C100_peer.
Print Assumptions C100_extra_headers.
Print Assumptions C100_extra_headers_refuted.
Print Assumptions C100_any_credentials_refuted.
