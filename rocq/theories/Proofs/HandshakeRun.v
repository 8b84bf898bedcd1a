(* Running the handshake of a server or client connection. *)
From Verif Require Import Base.Prelude Base.PreludeFacts Model.Datastructures Model.Headers Model.Streams Model.Http11 Model.Frames
  Model.Connection Model.Handshake Model.Server Model.Client Spec.Multimap Spec.Http1 Spec.History
  Proofs.StreamsFacts Proofs.ParserFacts Proofs.AtomicFacts Proofs.Http11Facts Properties.Connection.

Section Run.
Context {E : Type} (X : ext_ops E).

Definition holding (d : bytes) : reader := {| r_buffer := d; r_eof := false |}.

Lemma start_receive g c d : live g -> snd (step_parser X (Machine c reader_init (PRun g) None)) = Ok tt ->
  receive_data X (start X g c) d = step_parser X (Machine c (holding d) (PRun g) None).
Proof.
  intros L Ok0. set (m0 := Machine c reader_init (PRun g) None) in *.
  assert (L0 : parser_live m0) by (intros _; apply live_live_at, L).
  assert (E0 : receive_data X m0 [] = step_parser X m0) by reflexivity.
  pose proof (receive_data_app X m0 [] d L0) as A. rewrite E0 in A. rewrite Ok0 in A.
  change (fst (step_parser X m0)) with (start X g c) in A. cbn [app] in A.
  rewrite <- surjective_pairing in A. rewrite <- A. reflexivity.
Qed.

Lemma start_chunks g c datas : live g -> snd (step_parser X (Machine c reader_init (PRun g) None)) = Ok tt ->
  fst (do_calls X (start X g c) (map CReceiveData datas)) =
    fst (step_parser X (Machine c (holding (concat datas)) (PRun g) None)).
Proof.
  intros L Ok0. destruct datas as [|d ds]; [reflexivity|]. cbn [concat].
  destruct (feed_chunks X ds (start X g c) d (start_live X g c L)) as [-> _]. now rewrite start_receive.
Qed.

(* the handshake completes with nothing left to parse *)
Lemma step_done g c r c' : run g r c = ODone tt (holding []) c' -> forall e,
  step_parser X (Machine c r (PRun g) e) = (Machine c' reader_init (PRun (parse_body X)) e, Ok tt).
Proof.
  intros R e. rewrite step_parser_eq. cbn [m_parser m_reader m_conn m_exc].
  assert (P : ParserFacts.parse_all X g r c = Some (OSusp (parse_body X) reader_init c')).
  { eapply (parse_all_intro X 2). cbn [run_parser]. rewrite R. reflexivity. }
  now rewrite P.
Qed.
Lemma step_fail g c r e0 r' c' : run g r c = OFail e0 r' c' -> forall e,
  step_parser X (Machine c r (PRun g) e) =
    let '(code, reason) := close_code_for e0 in
    let '(c', res) := fail_connection X code reason c' in
    match res with Ok _ => (Machine c' r' PDead (Some e0), Raise e0) | Raise e' => (Machine c' r' PDead e, Raise e') end.
Proof.
  intros R e. rewrite step_parser_eq. cbn [m_parser m_reader m_conn m_exc].
  assert (P : ParserFacts.parse_all X g r c = Some (OFail e0 r' c')).
  { eapply (parse_all_intro X 1). cbn [run_parser]. rewrite R. reflexivity. }
  now rewrite P.
Qed.
Lemma step_susp g c r g' r' c' : run g r c = OSusp g' r' c' -> forall e,
  step_parser X (Machine c r (PRun g) e) = (Machine c' r' (PRun g') e, Ok tt).
Proof.
  intros R e. rewrite step_parser_eq. cbn [m_parser m_reader m_conn m_exc].
  assert (P : ParserFacts.parse_all X g r c = Some (OSusp g' r' c')).
  { eapply (parse_all_intro X 1). cbn [run_parser]. rewrite R. reflexivity. }
  now rewrite P.
Qed.

(* ---- server ---- *)

Lemma live_gmeth m : live (gmeth (E := E) m).
Proof. cbn. intros c. destruct (m c) as [c' [u|e]]; exact Logic.I. Qed.
Lemma live_server_parse : live (server_parse (E := E)).
Proof.
  unfold server_parse. apply live_gbind; [apply live_parse_request|]. intros req. cbn. intros c.
  destruct (c_state c); try exact Logic.I. apply live_gmeth.
Qed.
Lemma server_starts c : snd (step_parser X (Machine c reader_init (PRun (server_parse (E := E))) None)) = Ok tt.
Proof. reflexivity. Qed.

Lemma server_request datas w path l rest c : request_message w path l -> concat datas = w ++ rest -> c_state c = CONNECTING ->
  run (server_parse (E := E)) (holding (concat datas)) c =
    ODone tt (holding rest) (set_events c (c_events c ++ [EvRequest {| req_path := path; req_headers := headers_of l |}])).
Proof.
  intros M Ed Hc. unfold server_parse. rewrite run_gbind.
  rewrite (request_complete w path l M (holding (concat datas)) c rest Ed).
  cbn [obind]. cbn [get_state gbind run]. rewrite Hc. reflexivity.
Qed.

(* ---- client ---- *)

Lemma live_client_parse cfg key : live (client_parse (E := E) cfg key).
Proof.
  unfold client_parse. apply live_gbind; [apply live_parse_response|]. intros req. cbn. intros c.
  destruct (c_state c); try exact Logic.I. apply live_gmeth.
Qed.
Lemma client_starts cfg key c : snd (step_parser X (Machine c reader_init (PRun (client_parse (E := E) cfg key)) None)) = Ok tt.
Proof. reflexivity. Qed.

Lemma body_stateless {S S'} status reason h resp r (x : S) r' x' (y : S') :
  run (parse_body_of status reason h) r x = ODone resp r' x' -> x' = x /\ run (parse_body_of status reason h) r y = ODone resp r' y.
Proof.
  unfold parse_body_of. destruct (headers_contains _ _); [discriminate|].
  destruct (bodyless status).
  - cbn. intros [= <- <- <-]. auto.
  - destruct (headers_getitem h (s "Content-Length")) as [v|e].
    + destruct (Base.PyInt.py_int v) as [n|]; [|discriminate]. cbn. destruct (n <? 0)%Z; [discriminate|].
      destruct (lenZ (r_buffer r) <? n)%Z; [destruct (r_eof r); discriminate|]. intros [= <- <- <-]. auto.
    + destruct e; try discriminate. cbn. destruct (r_eof r); [|discriminate]. intros [= <- <- <-]. auto.
Qed.
Lemma response_stateless {S S'} resp r (x : S) r' x' (y : S') :
  run parse_response r x = ODone resp r' x' -> run parse_response r y = ODone resp r' y.
Proof.
  intros H. apply response_sound in H as (w & l & rest & Rh & Eb & _ & Hb).
  rewrite (response_complete w _ _ l Rh r y rest Eb). now apply body_stateless with (y := y) in Hb as [_ Hb].
Qed.

Lemma client_response cfg key datas resp rest c : receive_all parse_response tt datas = ODone resp (holding rest) tt ->
  c_state c = CONNECTING ->
  run (client_parse (E := E) cfg key) (holding (concat datas)) c =
    match handle_response cfg key resp c with
    | (c', Ok _) => ODone tt (holding rest) c'
    | (c', Raise e) => OFail e (holding rest) c'
    end.
Proof.
  intros R Hc. rewrite receive_all_live in R by apply live_parse_response.
  change {| r_buffer := concat datas; r_eof := false |} with (holding (concat datas)) in R.
  unfold client_parse. rewrite run_gbind. rewrite (response_stateless _ _ _ _ _ c R).
  cbn [obind]. cbn [get_state gbind run]. rewrite Hc. unfold gmeth. cbn [run].
  destruct (handle_response cfg key resp c) as [c' [[]|e]]; reflexivity.
Qed.
End Run.

(* ---- what the parsers return ---- *)
From Verif Require Import Base.PyInt Proofs.Phases Proofs.NegotiationFacts Spec.Handshake.

Fixpoint returns {S A} (F : A -> Prop) (g : gen S A) : Prop :=
  match g with
  | GRet a => F a
  | GRaise _ => True
  | GReadLine _ k => forall x, returns F (k x)
  | GReadExact _ k => forall x, returns F (k x)
  | GReadToEof k => forall x, returns F (k x)
  | GAtEof k => forall x, returns F (k x)
  | GGet k => forall c, returns F (k c)
  | GPut y k => returns F k
  | GYield k => returns F k
  end.
Lemma returns_gbind {S A B} (F : A -> Prop) (G : B -> Prop) (g : gen S A) (k : A -> gen S B) :
  returns F g -> (forall a, F a -> returns G (k a)) -> returns G (gbind g k).
Proof. intros H K. induction g; cbn [gbind returns] in *; auto. Qed.
Lemma returns_any {S A} (g : gen S A) : returns (fun _ => True) g.
Proof. induction g; cbn; auto. Qed.
Lemma returns_bind {S A B} (G : B -> Prop) (g : gen S A) (k : A -> gen S B) : (forall a, returns G (k a)) -> returns G (gbind g k).
Proof. intros K. eapply returns_gbind; [apply returns_any|]. intros a _. apply K. Qed.
Lemma safe2_returns {S A B} (R T : S -> S -> Prop) (F : A -> Prop) (g : gen S A) (k : A -> gen S B) :
  pure_reads g -> returns F g -> (forall a, F a -> safe2 R T None (k a)) -> safe2 R T None (gbind g k).
Proof. intros P H K. induction g; cbn [gbind safe2 pure_reads returns] in *; auto; contradiction. Qed.

Lemma setitem_of l k v : headers_setitem (headers_of l) k v = headers_of (l ++ [(k, v)]).
Proof. unfold headers_of, headers_update. rewrite fold_left_app. reflexivity. Qed.
Lemma update_of l l' : headers_update (headers_of l) l' = headers_of (l ++ l').
Proof. unfold headers_of, headers_update. rewrite fold_left_app. reflexivity. Qed.

Lemma loop_returns {S} n : forall l, returns (fun h => exists l', h = headers_of l') (@parse_headers_loop S n (headers_of l)).
Proof.
  induction n as [|n IH]; intros l; [exact I|]. rewrite loop_eq. apply returns_bind. intros ln.
  destruct ln as [|x ln]; [cbn; eauto|]. destruct (split1 (n2b 58) (x :: ln)) as [[nm v]|]; [|exact I].
  destruct (negb _); [exact I|]. cbn zeta. destruct (negb _); [exact I|]. rewrite setitem_of. apply IH.
Qed.

Definition from_wire (r : response) : Prop := (exists l, resp_headers r = headers_of l) /\ resp_exception r = None.
Lemma response_returns {S} : returns from_wire (@parse_response S).
Proof.
  apply returns_bind. intros ln. destruct (split3 ln) as [[[v st] rs]|]; [|exact I].
  destruct (negb _); [exact I|]. destruct (py_int (map b2n st)) as [status|]; [|exact I].
  destruct (negb _); [exact I|]. destruct (negb _); [exact I|]. apply returns_bind. intros reason.
  eapply returns_gbind; [apply (loop_returns _ [])|]. intros h Hh. destruct (headers_contains _ _); [exact I|].
  apply returns_bind. intros body. split; [exact Hh|reflexivity].
Qed.

Lemma pure_headers_loop {S} n : forall h, pure_reads (@parse_headers_loop S n h).
Proof.
  induction n as [|n IH]; intros h; [exact I|]. rewrite loop_eq.
  apply pure_gbind; [apply pure_gbind; [apply pure_read_line|]|].
  - intros l. destruct (MAX_LINE <? lenN l)%N; [exact I|]. destruct (strip_crlf l); exact I.
  - intros ln. destruct ln as [|x ln]; [exact I|]. destruct (split1 (n2b 58) (x :: ln)) as [[nm v]|]; [|exact I].
    destruct (negb _); [exact I|]. cbn zeta. destruct (negb _); [exact I|]. apply IH.
Qed.
Lemma pure_parse_line {S} : pure_reads (@parse_line S).
Proof.
  apply pure_gbind; [apply pure_read_line|].
  intros l. destruct (MAX_LINE <? lenN l)%N; [exact I|]. destruct (strip_crlf l); exact I.
Qed.
Lemma pure_request {S} : pure_reads (@parse_request S).
Proof.
  apply pure_gbind; [apply pure_parse_line|]. intros l. destruct (split3 l) as [[[m p] v]|]; [|exact I].
  destruct (negb _); [exact I|]. destruct (negb _); [exact I|]. apply pure_gbind; [apply pure_headers_loop|]. intros h. exact I.
Qed.
Lemma pure_response {S} : pure_reads (@parse_response S).
Proof.
  apply pure_gbind; [apply pure_parse_line|]. intros ln. destruct (split3 ln) as [[[v st] rs]|]; [|exact I].
  destruct (negb _); [exact I|]. destruct (py_int (map b2n st)) as [status|]; [|exact I].
  destruct (negb _); [exact I|]. destruct (negb _); [exact I|]. apply pure_gbind; [apply pure_glift|]. intros reason.
  apply pure_gbind; [apply pure_headers_loop|]. intros h. destruct (headers_contains _ _); [exact I|].
  apply pure_gbind; [|intros; exact I].
  match goal with |- pure_reads (if ?x then _ else _) => destruct x end; [exact I|].
  destruct (headers_getitem h (s "Content-Length")) as [c|e].
  - destruct (py_int c); [|exact I]. apply pure_gbind; [apply pure_read_exact|intros; exact I].
  - destruct e; try exact I; apply pure_gbind; try (intros; exact I); cbn; auto.
Qed.

(* ---- the phases of a server and of a client ---- *)

Section Runs.
Context {E : Type} (X : ext_ops E).
Implicit Type c : conn E.

Definition reads_request c c' : Prop := exists req, c' = set_events c (c_events c ++ [EvRequest req]).
Lemma server_parse_safe2 : safe2 (quiet (E := E)) reads_request None server_parse.
Proof.
  apply safe2_gbind; [apply pure_request|]. intros req. cbn [get_state gbind safe2]. intros c. cbn [gbind].
  destruct (c_state c); try exact I. cbn. intros c'. right. split; [now exists req|exact I].
Qed.

Definition reads_response cfg key c c' : Prop :=
  exists r, from_wire r /\ c' = fst (handle_response (E := E) cfg key r c).
Lemma client_parse_safe2 cfg key : safe2 (quiet (E := E)) (reads_response cfg key) None (client_parse cfg key).
Proof.
  apply (safe2_returns _ _ from_wire); [apply pure_response|apply response_returns|]. intros r Hr. cbn [get_state gbind safe2]. intros c. cbn [gbind].
  destruct (c_state c); try exact I. unfold gmeth. cbn [safe2]. intros c'.
  destruct (handle_response cfg key r c') as [c2 [u|e]] eqn:H; cbn [safe2]; right; (split; [exists r; split; [exact Hr|now rewrite H]|exact I]).
Qed.
End Runs.
