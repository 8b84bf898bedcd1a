(* C36-C37: HTTP Basic Authentication. *)
From Verif Require Import Base.Prelude Base.PreludeFacts Base.PyInt Base.Utf8 Base.Base64 Model.Datastructures Model.Headers Model.Http11 Model.Handshake Model.Server
  Model.LegacyHandshake Model.Auth Spec.Utf8Spec Spec.Rfc7230 Spec.Multimap Spec.Handshake Spec.BasicAuth
  Proofs.Utf8SpecFacts Proofs.MultimapFacts Proofs.HeadersFacts Proofs.AcceptFacts Proofs.AuthFacts Properties.HeaderGrammar Properties.Handshake.

(* The response of a server that requires authentication *)
Definition response_to {E} env (cfg : server_config E) realm check next (req : request) : result (Z * headers * option bytes) :=
  legacy_response env cfg (auth_process_request realm check next) true (Ok req).

Lemma legacy_reject_ok env st l body : (length (values l (s "Date")) <= 1)%nat -> (length (values l (s "Server")) <= 1)%nat ->
  (length (values l (s "Content-Length")) <= 1)%nat -> (length (values l (s "Content-Type")) <= 1)%nat -> (length (values l (s "Connection")) <= 1)%nat ->
  legacy_reject env (st, l, body) = Ok (st, headers_of (with_defaults l [
    (s "Date", env_date env); (s "Server", env_user_agent env);
    (s "Content-Length", str_of_N (lenN body)); (s "Content-Type", s "text/plain");
    (s "Connection", s "close")]), body).
Proof.
  intros H1 H2 H3 H4 H5. unfold legacy_reject. rewrite set_defaults_of; [reflexivity| |].
  - repeat constructor; cbn; intuition discriminate.
  - intros kv [<-|[<-|[<-|[<-|[<-|[]]]]]]; assumption.
Qed.
Lemma answers_401 {E} env (cfg : server_config E) realm challenge message req hook : build_www_authenticate_basic realm = Ok challenge ->
  hook (req_path req) (req_headers req) = unauthorized realm message ->
  exists h body, legacy_response env cfg hook true (Ok req) = Ok (401%Z, h, Some body) /\ headers_get_all h (s "WWW-Authenticate") = [challenge].
Proof.
  intros B H. unfold legacy_response, legacy_handshake. rewrite H. unfold unauthorized. rewrite B. cbn [rbind].
  rewrite legacy_reject_ok by (vm_compute; lia). cbn [rbind]. eexists _, _. split; [reflexivity|].
  rewrite (rep_get_all _ _ _ (rep_of _)). vm_compute. reflexivity.
Qed.

(* Without Authorization header, or with one that isn't made of Basic credentials, the response
   is 401, with the challenge.
   Missing: credentials that aren't in UTF-8, and several headers; see
   C36_malformed_credentials_refuted. *)
Theorem C36_malformed_credentials_partial : forall E env (cfg : server_config E) realm challenge check next req l,
  build_www_authenticate_basic realm = Ok challenge -> req_headers req = headers_of l ->
  (values l (s "Authorization") = [] \/
   exists h, values l (s "Authorization") = [h] /\ (forall u p, ~ basic_credentials h u p) /\
     ~ exists data, basic_header h data /\ ~ valid_utf8 data) ->
  exists h body, response_to env cfg realm check next req = Ok (401%Z, h, Some body) /\
    headers_get_all h (s "WWW-Authenticate") = [challenge].
Proof.
  intros E env cfg realm challenge check next req l B Hl H.
  assert (A : exists message, auth_process_request realm check next (req_path req) (req_headers req) = unauthorized realm message).
  { unfold auth_process_request. rewrite Hl, (rep_getitem _ _ _ (rep_of l)). destruct H as [->|(h & -> & N & Nu)]; [eauto|].
    pose proof (header_view h) as V. destruct (parse_authorization_basic h) as [[u p]|e]; [elim (N u p V)|].
    destruct V as [(-> & _)|(_ & _ & D)]; [eauto|contradiction]. }
  destruct A as [message A]. now apply (answers_401 env cfg realm challenge message).
Qed.

(* Credentials that aren't in UTF-8, or given twice, even if they're correct, are answered with
   500. *)
Theorem C36_malformed_credentials_refuted : forall E env (cfg : server_config E) realm check next req l,
  req_headers req = headers_of l ->
  ((exists h data, values l (s "Authorization") = [h] /\ basic_header h data /\ ~ valid_utf8 data) \/
   (exists h h' r, values l (s "Authorization") = h :: h' :: r)) ->
  exists h body, response_to env cfg realm check next req = Ok (500%Z, h, Some body).
Proof.
  intros E env cfg realm check next req l Hl H.
  assert (A : exists e, auth_process_request realm check next (req_path req) (req_headers req) = Raise e /\
    ((exists reason pos, e = UnicodeDecodeError reason pos) \/ exists n, e = MultipleValuesError n)).
  { unfold auth_process_request. rewrite Hl, (rep_getitem _ _ _ (rep_of l)). destruct H as [(h & data & -> & Bh & Nu)|(h & h' & r & ->)]; [|eauto].
    pose proof (header_view h) as V. destruct (parse_authorization_basic h) as [[u p]|e].
    - exfalso. destruct V as (d & Bh' & Ht & _). destruct Bh as (sc & x & E1 & L & T & T68 & D), Bh' as (sc' & x' & E' & L' & T' & T68' & D').
      assert (P1 := parse_token_exact h [] sc ([32]%N ++ x) T eq_refl). assert (P2 := parse_token_exact h [] sc' ([32]%N ++ x') T' eq_refl).
      rewrite <- E1 in P1. rewrite <- E' in P2. rewrite P1 in P2. apply ok_inj, pair_equal_spec in P2 as [_ P2]. injection P2 as <-.
      rewrite D in D'. apply ok_inj in D'. subst d. apply Nu. eexists. exact Ht.
    - destruct V as [(_ & _ & V)|(-> & V & _)]; [exfalso; apply V; eauto|eauto]. }
  destruct A as (e & A & He). unfold response_to, legacy_response, legacy_handshake. rewrite A.
  assert (Er : exists body, legacy_error e = Ok (500%Z, [], body)) by (destruct He as [(reason & pos & ->)|(n & ->)]; eexists; reflexivity).
  destruct Er as [body ->]. cbn [rbind]. rewrite legacy_reject_ok by (vm_compute; lia). cbn [rbind]. eauto.
Qed.

Definition auth_request (values : list str) : pairs := [(s "Host", s "example.com")] ++ map (fun v => (s "Authorization", v)) values.
Definition auth_status (vs : list str) : result (Z * option bytes) :=
  let! (st, _, body) := response_to ex_env ex_config (s "access") (fun u p => Ok (str_eqb u (s "hello") && str_eqb p (s "iloveyou"))) (fun _ _ => Ok None)
    {| req_path := s "/"; req_headers := headers_of (auth_request vs) |} in Ok (st, body).
Example C36_applies : (exists c, build_www_authenticate_basic (s "access") = Ok c) /\
  auth_status [] = Ok (401%Z, Some (b "Missing credentials" ++ [n2b 10])) /\
  auth_status [s "Basic !!!"] = Ok (401%Z, Some (b "Unsupported credentials" ++ [n2b 10])) /\
  auth_status [s "Basic aGVsbG86aWxvdmV5b3U="] = Ok (426%Z, Some (b "Failed to open a WebSocket connection: empty Connection header." ++ [n2b 10; n2b 10] ++
    b "You cannot access a WebSocket server directly with a browser. You need a WebSocket client." ++ [n2b 10])) /\
  auth_status [s "Basic aGVsbG86aWxvdmV5b3Vu"] = Ok (401%Z, Some (b "Invalid credentials" ++ [n2b 10])) /\
  (exists body, auth_status [s "Basic gIA6gA=="] = Ok (500%Z, Some body)) /\
  (exists body, auth_status [s "Basic aGVsbG86aWxvdmV5b3U="; s "Basic aGVsbG86aWxvdmV5b3U="] = Ok (500%Z, Some body)).
Proof. repeat split; try (eexists; vm_compute; reflexivity); vm_compute; reflexivity. Qed.
Example C36_refuted_applies : exists data, basic_header (s "Basic gIA6gA==") data /\ ~ valid_utf8 data.
Proof.
  exists (map n2b [128; 128; 58; 128]%N). split.
  - exists (s "Basic"), (s "gIA6gA=="). do 2 (split; [reflexivity|]). split; [apply token_class; split; [discriminate|apply Forall_forall, forallb_forall; reflexivity]|].
    split; [|vm_compute; reflexivity]. exists (s "gIA6gA"), 2%nat. split; [reflexivity|]. split; [discriminate|].
    apply Forall_forall. intros c H. apply token68_char_iff. revert c H. apply forallb_forall. reflexivity.
  - intros [t H]. apply utf8_decode_spec in H. vm_compute in H. discriminate.
Qed.

(* ---- C37 ---- *)

(* A request goes on to the next step if and only if it has the credentials of a user;
   otherwise, the next step plays no role, and the request isn't accepted. *)
Theorem C37_access_iff_configured : forall credentials cs, gives credentials cs ->
  exists f, hard_coded credentials = Ok f /\
  forall realm path l,
  let process next := auth_process_request realm (fun u p => Ok (f u p)) next path (headers_of l) in
  ((exists h u p, values l (s "Authorization") = [h] /\ basic_credentials h u p /\ configured cs u p) ->
   forall next, process next = next path (headers_of l)) /\
  (~ (exists h u p, values l (s "Authorization") = [h] /\ basic_credentials h u p /\ configured cs u p) ->
   exists r, r <> Ok None /\ forall next, process next = r).
Proof.
  intros v cs G. destruct (hard_coded_iff v cs G) as (f & Hf & F). exists f. split; [exact Hf|]. intros realm path l process. subst process. cbn beta.
  unfold auth_process_request. rewrite (rep_getitem _ _ _ (rep_of l)).
  assert (Un : forall m, unauthorized realm m <> Ok None).
  { intros m. unfold unauthorized. destruct (build_www_authenticate_basic realm); cbn [rbind]; discriminate. }
  destruct (values l (s "Authorization")) as [|h [|h' r]].
  - split; [intros (h & u & p & H & _); discriminate|]. intros _. eexists. split; [apply Un|reflexivity].
  - pose proof (header_view h) as V. destruct (parse_authorization_basic h) as [[u p]|e].
    + cbn [rbind]. split.
      * intros (h' & u' & p' & H & B & C). injection H as <-. destruct (credentials_fun h u p u' p' V B) as [<- <-]. apply F in C. now rewrite C.
      * intros N. assert (C : f u p = false). { destruct (f u p) eqn:Q; [|reflexivity]. exfalso. apply N. exists h, u, p. split; [reflexivity|]. split; [exact V|now apply F]. }
        rewrite C. eexists. split; [apply Un|reflexivity].
    + split.
      * intros (h' & u' & p' & H & B & C). injection H as <-. exfalso. destruct V as [(_ & V & _)|(_ & _ & data & Bh & Nu)]; [now apply (V u' p')|].
        destruct B as (d & Bh' & Ht & _). destruct Bh as (sc & x & E1 & L & T & T68 & D), Bh' as (sc' & x' & E' & L' & T' & T68' & D').
        assert (P1 := parse_token_exact h [] sc ([32]%N ++ x) T eq_refl). assert (P2 := parse_token_exact h [] sc' ([32]%N ++ x') T' eq_refl).
        rewrite <- E1 in P1. rewrite <- E' in P2. rewrite P1 in P2. apply ok_inj, pair_equal_spec in P2 as [_ P2]. injection P2 as <-.
        rewrite D in D'. apply ok_inj in D'. subst d. apply Nu. eexists. exact Ht.
      * intros _. destruct (is_invalid_header e); eexists; (split; [|reflexivity]); [apply Un|discriminate].
  - split; [intros (h0 & u & p & H & _); discriminate|]. intros _. eexists. split; [|reflexivity]. discriminate.
Qed.

(* A pair that isn't a tuple, for example a list, is accepted by the factory, but no one can
   authenticate. *)
Theorem C37_list_pair_refuted : forall u p, exists f, hard_coded (PyList [PyStr u; PyStr p]) = Ok f /\ forall u' p', f u' p' = false.
Proof. intros u p. eexists. split; [reflexivity|]. reflexivity. Qed.

Example C37_applies : gives (PyList [pair_of (s "hello", s "old"); pair_of (s "bob", s "x:y"); pair_of (s "hello", s "iloveyou")])
    [(s "hello", s "old"); (s "bob", s "x:y"); (s "hello", s "iloveyou")] /\
  configured [(s "hello", s "old"); (s "bob", s "x:y"); (s "hello", s "iloveyou")] (s "hello") (s "iloveyou") /\
  ~ configured [(s "hello", s "old"); (s "bob", s "x:y"); (s "hello", s "iloveyou")] (s "hello") (s "old") /\
  basic_credentials (s "Basic aGVsbG86aWxvdmV5b3U=") (s "hello") (s "iloveyou").
Proof.
  split; [right; left; reflexivity|]. split; [exists [(s "hello", s "old"); (s "bob", s "x:y")], []; split; [reflexivity|intros []]|].
  split; [intros H; apply dict_get_iff in H; vm_compute in H; discriminate|].
  pose proof (header_view (s "Basic aGVsbG86aWxvdmV5b3U=")) as V.
  replace (parse_authorization_basic (s "Basic aGVsbG86aWxvdmV5b3U=")) with (Ok (s "hello", s "iloveyou")) in V by (vm_compute; reflexivity). exact V.
Qed.

Print Assumptions C36_malformed_credentials_partial.
Print Assumptions C36_malformed_credentials_refuted.
Print Assumptions C37_access_iff_configured.
Print Assumptions C37_list_pair_refuted.
