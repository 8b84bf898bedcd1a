(* C52-C54 and C73: URIs and redirects. *)
From Verif Require Import Base.Prelude Base.PreludeFacts Base.PyInt Base.Utf8 Base.Utf8Facts Model.Client Model.Uri Model.Connect Spec.Uri
  Proofs.UriFacts.

(* str.lower on ASCII text *)
Definition lowers_ascii (ue : uri_env) : Prop := forall x, Forall (fun c => c < 128)%N x -> ue_lower ue x = lower x.

(* ---- C54 ---- *)

(* A URI made of valid components is split into these components. *)
Theorem C54_components : forall ue u port, lowers_ascii ue -> valid_components (ue_bracketed ue) u ->
  has_port u port -> port <> 0%Z ->
  parse_uri ue (uri_text u) = Ok {| uri_secure := is_secure u; uri_host := bare_host (co_host u); uri_port := port;
    uri_resource_name := resource_name u; uri_user_info := co_user u |}.
Proof.
  intros ue u pt L V Hp Np. unfold parse_uri.
  pose proof (urlsplit_uri ue u V [] (or_introl eq_refl)) as S. rewrite app_nil_r in S.
  assert (C := uri_chars ue u V). rewrite S; [|apply clean_id; eapply Forall_impl; [|exact C]; cbn; lia]. cbn [rbind].
  destruct (scheme_facts ue u V) as (_ & _ & Sc). rewrite Sc. cbn [negb].
  rewrite (hostname_authority ue u V L), (port_authority ue u V). cbn [rbind]. rewrite (userinfo_authority ue u V).
  assert (U : (match option_map (fun up : str * str => (fst up, Some (snd up))) (co_user u) with
      | None => Ok None | Some (_, None) => Raise (InvalidURI (uri_text u)) | Some (n, Some p) => Ok (Some (n, p)) end) = Ok (co_user u)).
  { destruct (co_user u) as [[n p]|]; reflexivity. }
  cbn [option_map] in *. destruct (co_user u) as [[n p]|] eqn:Hu; cbn [option_map fst snd rbind].
  all: rewrite ascii_bool by (eapply Forall_impl; [|exact C]; cbn; lia); f_equal; f_equal.
  all: try (unfold is_secure; reflexivity).
  all: try (unfold has_port, default_port, is_secure in Hp; destruct (co_port u) as [[|c q]|]; try exact (eq_sym Hp);
    apply digits_value_iff in Hp as [_ Hp]; rewrite <- Hp; destruct (Z.eqb_spec pt 0); [contradiction|reflexivity]).
  all: unfold resource_name; destruct (co_query u) as [[|c q]|]; destruct (co_path u); rewrite ?app_nil_r; reflexivity.
Qed.

Definition ex_uri_env : uri_env := {| ue_bracketed := fun x => str_eqb x (s "::1"); ue_nfkc_ok := fun _ => true; ue_lower := lower;
  ue_idna := fun x => Ok (s "xn--" ++ filter (fun c => c <? 128)%N x) |}.
Definition ex_components : components := {| co_scheme := s "WSS"; co_user := Some (s "me", s "p:w"); co_host := HName (s "Example.COM");
  co_port := Some (s "8765"); co_path := s "/chat;x=1"; co_query := Some (s "a=b?c") |}.
Lemma ex_components_valid : valid_components (ue_bracketed ex_uri_env) ex_components.
Proof.
  assert (A : forall c, ((c <? 128) && (is_alpha c || is_digit c))%N = true -> unreserved c).
  { intros c H. unfold is_alpha, is_digit in H. unfold unreserved, alpha, digit. lia. }
  assert (N : forall c, is_alpha c || is_digit c || (c =? 46)%N || (c =? 59)%N || (c =? 61)%N = true -> name_char c).
  { intros c H. unfold name_char, unreserved, sub_delim, alpha, digit. unfold is_alpha, is_digit in H.
    destruct (N.eq_dec c 46) as [E|?]; [subst c; left; right; right; vm_compute; tauto|].
    destruct (N.eq_dec c 59) as [E|?]; [subst c; right; vm_compute; tauto|].
    destruct (N.eq_dec c 61) as [E|?]; [subst c; right; vm_compute; tauto|]. left. clear A. lia. }
  assert (Q : forall c, is_alpha c || is_digit c || (c =? 46)%N || (c =? 59)%N || (c =? 61)%N || (c =? 47)%N || (c =? 63)%N = true -> query_char c).
  { intros c H. destruct (N.eq_dec c 63) as [E|?]; [subst c; now right|]. left.
    destruct (N.eq_dec c 47) as [E|?]; [subst c; right; vm_compute; tauto|]. left. left. apply N. unfold is_alpha, is_digit in *. lia. }
  assert (P : forall c, is_alpha c || is_digit c || (c =? 46)%N || (c =? 59)%N || (c =? 61)%N || (c =? 47)%N = true -> path_char c).
  { intros c H. destruct (N.eq_dec c 47) as [E|?]; [subst c; right; vm_compute; tauto|]. left. left. apply N. unfold is_alpha, is_digit in *. lia. }
  constructor; cbn [ex_components co_scheme co_user co_host co_port co_path co_query].
  - right. vm_compute. reflexivity.
  - intros n p H. injection H as <- <-. split.
    + apply Forall_forall. intros c H. left. apply N. revert c H. apply forallb_forall. reflexivity.
    + apply Forall_forall. intros c H. destruct (N.eq_dec c 58) as [E|?]; [subst c; now right|]. left. left. apply N.
      vm_compute in H. repeat (destruct H as [<-|H]; [reflexivity || contradiction|]). contradiction.
  - split; [discriminate|]. apply Forall_forall. intros c H. apply N. revert c H. apply forallb_forall. reflexivity.
  - intros p H. injection H as <-. exists 8765%Z. split; [|lia]. apply digits_value_iff. split; [|reflexivity].
    apply Forall_forall. intros c H. unfold digit. vm_compute in H. repeat (destruct H as [<-|H]; [lia|]). contradiction.
  - split; [|right; now exists (s "chat;x=1")]. apply Forall_forall. intros c H. apply P. revert c H. apply forallb_forall. reflexivity.
  - intros q H. injection H as <-. apply Forall_forall. intros c H. apply Q. revert c H. apply forallb_forall. reflexivity.
Qed.
Example C54_applies : lowers_ascii ex_uri_env /\ valid_components (ue_bracketed ex_uri_env) ex_components /\ has_port ex_components 8765 /\
  uri_text ex_components = s "WSS://me:p:w@Example.COM:8765/chat;x=1?a=b?c" /\
  parse_uri ex_uri_env (uri_text ex_components) = Ok {| uri_secure := true; uri_host := s "example.com"; uri_port := 8765;
    uri_resource_name := s "/chat;x=1?a=b?c"; uri_user_info := Some (s "me", s "p:w") |} /\
  parse_uri ex_uri_env (s "ws://[::1]?q") = Ok {| uri_secure := false; uri_host := s "::1"; uri_port := 80;
    uri_resource_name := s "/?q"; uri_user_info := None |}.
Proof.
  split; [intros x _; reflexivity|]. split; [apply ex_components_valid|]. split.
  - apply digits_value_iff. split; [|reflexivity]. apply Forall_forall. intros c H. unfold digit. vm_compute in H. repeat (destruct H as [<-|H]; [lia|]). contradiction.
  - repeat split; vm_compute; reflexivity.
Qed.

(* Port 0 is replaced with the default port. *)
Theorem C54_port_zero_refuted : forall ue u, lowers_ascii ue -> valid_components (ue_bracketed ue) u -> (exists p, p <> [] /\ co_port u = Some p) -> has_port u 0 ->
  exists w, parse_uri ue (uri_text u) = Ok w /\ uri_port w = default_port (is_secure u).
Proof.
  intros ue u L V (q & Nq & Hq) Hp. unfold parse_uri.
  pose proof (urlsplit_uri ue u V [] (or_introl eq_refl)) as S. rewrite app_nil_r in S.
  assert (C := uri_chars ue u V). rewrite S; [|apply clean_id; eapply Forall_impl; [|exact C]; cbn; lia]. cbn [rbind].
  destruct (scheme_facts ue u V) as (_ & _ & Sc). rewrite Sc. cbn [negb].
  rewrite (hostname_authority ue u V L), (port_authority ue u V). cbn [rbind]. rewrite (userinfo_authority ue u V).
  assert (A : is_ascii (uri_text u) = true) by (apply ascii_bool; eapply Forall_impl; [|exact C]; cbn; lia). rewrite A.
  unfold has_port in Hp. rewrite Hq in *. destruct q as [|c q]; [contradiction|]. apply digits_value_iff in Hp as [_ Hp]. rewrite <- Hp.
  destruct (co_user u) as [[n p]|]; cbn [option_map fst snd rbind]; eexists; (split; [reflexivity|]); reflexivity.
Qed.
Example C54_port_zero_applies : parse_uri ex_uri_env (s "ws://localhost:0/") = parse_uri ex_uri_env (s "ws://localhost:80/").
Proof. vm_compute. reflexivity. Qed.

(* What is accepted: another scheme, a fragment that isn't empty, or a user without password
   can't be.  [clean] removes leading spaces and control characters, then tabs and line ends. *)
Definition fragment_text (f : option str) : str := opt f (fun f => 35%N :: f).
Theorem C54_accepted : forall ue x w, parse_uri ue x = Ok w ->
  exists scheme auth path query fragment,
    clean x = scheme ++ s "://" ++ auth ++ path ++ query ++ fragment /\
    insensitive scheme (if uri_secure w then s "wss" else s "ws") /\
    Forall (fun c => ~ In c (s "/?#")) auth /\ auth <> [] /\
    (path = [] \/ exists r, path = s "/" ++ r) /\ ~ In 63%N path /\ ~ In 35%N path /\
    (query = [] \/ exists q, query = s "?" ++ q) /\ ~ In 35%N query /\
    (fragment = [] \/ fragment = s "#") /\
    (uri_user_info w = None <-> ~ In 64%N auth) /\
    (In 64%N auth -> exists user password host, auth = user ++ s ":" ++ password ++ s "@" ++ host /\
       ~ In 58%N user /\ ~ In 64%N host /\ (is_ascii x = true -> uri_user_info w = Some (user, password))) /\
    (is_ascii x = true -> uri_resource_name w = (match path with [] => s "/" | _ => path end) ++ (match query with _ :: [] => [] | q => q end)).
Proof.
  intros ue x w H. unfold parse_uri in H.
  destruct (urlsplit ue x) as [[[[[scheme netloc] path] query] fragment]|] eqn:U; cbn [rbind] in H; [|discriminate].
  destruct (str_eqb scheme (s "ws") || str_eqb scheme (s "wss")) eqn:Sc; cbn [negb] in H; [|discriminate].
  destruct fragment as [|? ?]; [|discriminate]. destruct (hostname ue netloc) as [host|] eqn:Hh; [|discriminate].
  apply urlsplit_view in U; [|intros ->; discriminate Sc].
  destruct U as (sch & q & f & -> & Ns & P1 & P2 & Q1 & Hq & Hf & U).
  assert (Nn : netloc <> []) by (intros ->; vm_compute in Hh; discriminate).
  destruct U as [[-> _]|(Hx & Fn & Hr)]; [contradiction|].
  assert (Fu : fragment_text f = [] \/ fragment_text f = s "#") by (unfold fragment_text; destruct f as [f|]; [subst f; now right|now left]).
  exists sch, netloc, path, (opt q (fun q => 63%N :: q)), (fragment_text f). split; [exact Hx|].
  destruct (port netloc) as [pp|]; cbn [rbind] in H; [|discriminate].
  assert (Ui : exists ui, (match userinfo netloc with None => Ok None | Some (_, None) => Raise (InvalidURI x) | Some (n, Some p) => Ok (Some (n, p)) end) = Ok ui /\
    uri_secure w = str_eqb (lower sch) (s "wss") /\ (uri_user_info w = None <-> ui = None) /\
    (is_ascii x = true -> uri_user_info w = ui /\ uri_resource_name w = (match path with [] => s "/" | _ => path end) ++ (match query with [] => [] | _ => s "?" ++ query end))).
  { destruct (match userinfo netloc with None => Ok None | Some (_, None) => Raise (InvalidURI x) | Some (n, Some p) => Ok (Some (n, p)) end) as [ui|]; cbn [rbind] in H; [|discriminate].
    exists ui. split; [reflexivity|]. destruct (is_ascii x).
    - apply ok_inj in H. subst w. split; [reflexivity|]. split; [tauto|]. intros _. split; [reflexivity|]. cbn [uri_resource_name]. destruct query; [now rewrite app_nil_r|reflexivity].
    - destruct (ue_idna ue host) as [h'|]; cbn [rbind] in H; [|discriminate].
      match type of H with rbind ?m _ = _ => destruct m as [rn|]; cbn [rbind] in H; [|discriminate] end.
      destruct ui as [[n p]|].
      + destruct (quote n) as [n'|]; cbn [rbind] in H; [|discriminate]. destruct (quote p) as [p'|]; cbn [rbind] in H; [|discriminate].
        apply ok_inj in H. subst w. split; [reflexivity|]. split; [split; discriminate|discriminate].
      + cbn [rbind] in H. apply ok_inj in H. subst w. split; [reflexivity|]. split; [tauto|discriminate]. }
  destruct Ui as (ui & Ui & Us & Uw & Ua).
  split. { unfold insensitive. rewrite Us. destruct (str_eqb (lower sch) (s "wss")) eqn:W; [apply str_eqb_eq in W; now rewrite W|].
    rewrite Bool.orb_false_r in Sc. apply str_eqb_eq in Sc. now rewrite Sc. }
  split. { eapply Forall_impl; [|exact Fn]. intros c D I. apply D. unfold delim. vm_compute in I. destruct I as [<-|[<-|[<-|[]]]]; auto. }
  split; [exact Nn|].
  split. { destruct path as [|c r]; [now left|]. right. unfold rest_of in Hr. destruct Hr as [Hr|(c' & r' & Hr & D)]; [discriminate|]. cbn [app] in Hr. injection Hr as <- _.
    destruct D as [-> |[-> | ->]]; [now exists r| |]; exfalso; [apply P2|apply P1]; now left. }
  split; [exact P2|]. split; [exact P1|].
  split. { destruct q as [q|]; [right; now exists q|now left]. }
  split. { destruct q as [q|]; cbn [opt]; [|intros []]. intros [I|I]; [discriminate|]. now apply (Q1 q eq_refl). }
  split; [exact Fu|]. pose proof (rpartition_view 64 netloc) as R. unfold userinfo in Ui.
  destruct (rpartition 64 netloc) as [[info hp]|].
  - destruct R as [-> Nh]. pose proof (partition_view 58 info) as Pi. destruct (partition 58 info) as [n [p|]]; [|discriminate]. destruct Pi as [-> Np].
    apply ok_inj in Ui. subst ui. assert (I : In 64%N ((n ++ 58%N :: p) ++ 64%N :: hp)) by (apply in_app_iff; right; now left).
    split; [split; [intros E; apply Uw in E; discriminate|contradiction]|]. split.
    + intros _. exists n, p, hp. split; [rewrite <- app_assoc; reflexivity|]. split; [exact Np|]. split; [exact Nh|]. intros A. now apply Ua.
    + intros A. destruct (Ua A) as [_ ->]. f_equal. subst query. destruct q as [[|c q]|]; reflexivity.
  - apply ok_inj in Ui. subst ui. split; [split; [intros _; exact R|intros _; now apply Uw]|]. split; [contradiction|].
    intros A. destruct (Ua A) as [_ ->]. f_equal. subst query. destruct q as [[|c q]|]; reflexivity.
Qed.

(* The errors, when only this is wrong. *)
Theorem C54_refused : forall ue u, lowers_ascii ue -> valid_components (ue_bracketed ue) u ->
  (* a fragment *)
  (forall f, f <> [] -> Forall (fun c => 32 < c)%N f -> parse_uri ue (uri_text u ++ s "#" ++ f) = Raise (InvalidURI (uri_text u ++ s "#" ++ f))) /\
  (* another scheme *)
  (forall sc, lower sc <> s "ws" -> lower sc <> s "wss" -> Forall alpha sc -> sc <> [] ->
     let x := sc ++ skipn (length (co_scheme u)) (uri_text u) in parse_uri ue x = Raise (InvalidURI x)).
Proof.
  intros ue u L V. assert (C := uri_chars ue u V). split.
  - intros f Nf Ff. unfold parse_uri. rewrite (urlsplit_uri ue u V).
    2:{ right. now exists f. }
    2:{ apply clean_id. apply Forall_app. split; [eapply Forall_impl; [|exact C]; cbn; lia|]. change (s "#") with [35%N]. constructor; [lia|exact Ff]. }
    cbn [rbind]. destruct (scheme_facts ue u V) as (_ & _ & Sc). rewrite Sc. cbn [negb app]. change (s "#") with [35%N]. cbn [app]. destruct f; [contradiction|reflexivity].
  - intros sc N1 N2 F Ne x. assert (Hx : x = sc ++ s ":" ++ (47 :: 47 :: (authority u ++ path_query u))%N).
    { unfold x. rewrite uri_text_eq, skipn_app, skipn_all, Nat.sub_diag. reflexivity. }
    unfold parse_uri, urlsplit. rewrite clean_id.
    2:{ rewrite Hx. apply Forall_app. split; [eapply Forall_impl; [|exact F]; unfold alpha; intros; lia|]. change (s ":") with [58%N].
        cbn [app]. do 3 (constructor; [lia|]). apply Forall_app. split; [eapply Forall_impl; [|exact (authority_chars ue u V)]; cbn; lia|].
        eapply Forall_impl; [|exact (path_query_chars ue u V)]. intros c H. apply query_char_facts in H. lia. }
    rewrite Hx at 1. rewrite (split_scheme_ok _ _ Ne F). rewrite split_netloc_app.
    2:{ eapply Forall_impl; [|exact (authority_chars ue u V)]. unfold delim. cbn. intros; lia. }
    2:{ unfold path_query. destruct (proj2 (vc_path _ _ V)) as [->|[r ->]].
        - destruct (co_query u) as [q|]; cbn [opt app]; [right; eexists _, _; split; [reflexivity|]; unfold delim; vm_compute; auto|now left].
        - right. eexists _, _. split; [reflexivity|]. unfold delim; vm_compute; auto. }
    rewrite (brackets_authority ue u V). cbn [rbind]. rewrite (netloc_authority ue u V).
    assert (Sc : str_eqb (lower sc) (s "ws") || str_eqb (lower sc) (s "wss") = false).
    { destruct (str_eqb (lower sc) (s "ws")) eqn:Q1; [apply str_eqb_eq in Q1; contradiction|]. destruct (str_eqb (lower sc) (s "wss")) eqn:Q2; [apply str_eqb_eq in Q2; contradiction|reflexivity]. }
    destruct (partition 35 (path_query u)) as [a [f|]]; destruct (partition 63 a) as [p [q|]]; cbn [rbind]; rewrite Sc; reflexivity.
Qed.

(* RFC 6455 section 3 forbids fragments; an empty one is accepted. *)
Theorem C54_empty_fragment_refuted : forall ue u, lowers_ascii ue -> valid_components (ue_bracketed ue) u ->
  exists w, parse_uri ue (uri_text u ++ s "#") = Ok w.
Proof.
  intros ue u L V. assert (C := uri_chars ue u V).
  assert (C' : Forall (fun c => 32 < c < 127)%N (uri_text u ++ s "#")).
  { apply Forall_app. split; [eapply Forall_impl; [|exact C]; cbn; lia|]. change (s "#") with [35%N]. constructor; [lia|constructor]. }
  unfold parse_uri. rewrite (urlsplit_uri ue u V); [|right; now exists []|apply clean_id; eapply Forall_impl; [|exact C']; cbn; lia].
  cbn [rbind]. destruct (scheme_facts ue u V) as (_ & _ & Sc). rewrite Sc. cbn [negb]. change (s "#") with [35%N].
  rewrite (hostname_authority ue u V L), (port_authority ue u V). cbn [rbind]. rewrite (userinfo_authority ue u V).
  assert (A : is_ascii (uri_text u ++ [35%N]) = true) by (apply ascii_bool; eapply Forall_impl; [|exact C']; cbn; lia). rewrite A.
  destruct (co_user u) as [[n p]|]; cbn [option_map fst snd rbind]; eexists; reflexivity.
Qed.

(* An IRI: the resource name and the user info are in ASCII, without spaces and control
   characters. *)
Lemma quote_chars x y : quote x = Ok y -> Forall (fun c => 32 < c < 127)%N y.
Proof.
  unfold quote. destruct (utf8_encode x) as [data|]; cbn [rbind]; [|discriminate]. intros H. apply ok_inj in H. subst y.
  induction data as [|d data IH]; [constructor|]. cbn [flat_map]. apply Forall_app. split; [|exact IH]. cbv zeta.
  assert (B : (b2n d < 256)%N) by apply b2n_lt. destruct (safe_char (b2n d)) eqn:Sf.
  - constructor; [|constructor]. unfold safe_char in Sf. rewrite !Bool.orb_true_iff in Sf.
    assert (In_ : forall l, existsb (N.eqb (b2n d)) l = true -> Forall (fun c => 32 < c < 127)%N l -> (32 < b2n d < 127)%N).
    { intros l E F. apply existsb_exists in E as (c & I & E). apply N.eqb_eq in E. rewrite E. now apply (proj1 (Forall_forall _ _) F). }
    destruct Sf as [[[Sf|Sf]|Sf]|Sf]; [unfold is_alpha in Sf; lia|unfold is_digit in Sf; lia| |]; apply (In_ _ Sf); apply Forall_forall; intros c H; vm_compute in H; repeat (destruct H as [<-|H]; [lia|]); contradiction.
  - unfold percent. assert (Hx : forall n, (n < 16 -> 32 < hex_digit n < 127)%N) by (intros n; unfold hex_digit; destruct (n <? 10)%N eqn:Q; lia).
    constructor; [lia|]. constructor; [apply Hx; apply N.div_lt_upper_bound; lia|]. constructor; [apply Hx; apply N.mod_lt; lia|constructor].
Qed.
Theorem C54_iri : forall ue x w, is_ascii x = false -> parse_uri ue x = Ok w ->
  Forall (fun c => 32 < c < 127)%N (uri_resource_name w) /\
  forall user pw, uri_user_info w = Some (user, pw) -> Forall (fun c => 32 < c < 127)%N (user ++ pw).
Proof.
  intros ue x w A H. unfold parse_uri in H. rewrite A in H.
  destruct (urlsplit ue x) as [[[[[scheme netloc] path] query] fragment]|]; cbn [rbind] in H; [|discriminate].
  destruct (negb _); [discriminate|]. destruct fragment; [|discriminate]. destruct (hostname ue netloc); [|discriminate].
  destruct (port netloc); cbn [rbind] in H; [|discriminate].
  match type of H with rbind ?m _ = _ => destruct m as [ui|]; cbn [rbind] in H; [|discriminate] end.
  destruct (ue_idna ue _); cbn [rbind] in H; [|discriminate].
  match type of H with rbind ?m _ = _ => destruct m as [rn|] eqn:Er; cbn [rbind] in H; [|discriminate] end.
  apply quote_chars in Er. destruct ui as [[n p]|].
  - destruct (quote n) as [n'|] eqn:En; cbn [rbind] in H; [|discriminate]. destruct (quote p) as [p'|] eqn:Ep; cbn [rbind] in H; [|discriminate].
    apply ok_inj in H. subst w. split; [exact Er|]. intros user pw E. cbn in E. injection E as <- <-. apply Forall_app. split; [now apply quote_chars in En|now apply quote_chars in Ep].
  - cbn [rbind] in H. apply ok_inj in H. subst w. split; [exact Er|discriminate].
Qed.
Definition iri : str := s "ws://h/" ++ [233]%N ++ s "%20".
Example C54_iri_applies : parse_uri ex_uri_env (s "wss://m:p" ++ [233]%N ++ s "@ex" ++ [228]%N ++ s "mple/a b" ++ [8364]%N) = Ok {|
  uri_secure := true; uri_host := s "xn--exmple"; uri_port := 443; uri_resource_name := s "/a%20b%E2%82%AC"; uri_user_info := Some (s "m", s "p%C3%A9") |}.
Proof. vm_compute. reflexivity. Qed.

(* ... but in an IRI, characters that are percent-encoded are encoded a second time. *)
Theorem C54_iri_percent_refuted : exists w, parse_uri ex_uri_env iri = Ok w /\ uri_resource_name w = s "/%C3%A9%2520".
Proof. eexists. split; vm_compute; reflexivity. Qed.

Print Assumptions C54_components.
Print Assumptions C54_port_zero_refuted.
Print Assumptions C54_accepted.
Print Assumptions C54_refused.
Print Assumptions C54_empty_fragment_refuted.
Print Assumptions C54_iri.
Print Assumptions C54_iri_percent_refuted.
