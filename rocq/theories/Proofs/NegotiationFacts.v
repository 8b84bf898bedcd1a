(* Negotiation of extensions and subprotocols, and the client's check of the response. *)
From Coq Require Import Permutation.
From Verif Require Import Base.Prelude Base.PreludeFacts Base.Utf8 Base.Utf8Facts Base.Base64 Model.Utils Model.Datastructures
  Model.Headers Model.Http11 Model.Frames Model.Connection Model.Handshake Model.Server Model.Client
  Spec.Rfc7230 Spec.Multimap Spec.Handshake
  Proofs.HeadersFacts Proofs.MultimapFacts Proofs.KeyFacts Proofs.HandshakeFacts Properties.HeaderGrammar.

(* ---- subprotocols ---- *)

Lemma existsb_str x l : existsb (str_eqb x) l = true <-> In x l.
Proof.
  rewrite existsb_exists. split.
  - intros (y & I & H). apply str_eqb_eq in H. now subst.
  - intros I. exists x. split; [exact I|now apply str_eqb_eq].
Qed.
Lemma dedup_in x l : In x (dedup l) <-> In x l.
Proof.
  induction l as [|y l IH]; cbn [dedup In]; [tauto|]. destruct (existsb (str_eqb y) l) eqn:H.
  - rewrite IH. split; [auto|]. intros [<-|I]; [now apply existsb_str in H|exact I].
  - cbn [In]. now rewrite IH.
Qed.
Lemma index_position x l : In x l -> position x l (index_of l x).
Proof.
  induction l as [|y l IH]; [intros []|]. intros I. cbn [index_of]. destruct (str_eqb y x) eqn:H.
  - apply str_eqb_eq in H. subst y. exists [], l. auto.
  - destruct I as [->|I]; [rewrite (proj2 (str_eqb_eq x x) eq_refl) in H; discriminate|]. destruct (IH I) as (pre & post & -> & N & L).
    exists (y :: pre), post. split; [reflexivity|]. split; [|cbn; congruence]. intros [->|J]; [|auto].
    rewrite (proj2 (str_eqb_eq x x) eq_refl) in H. discriminate.
Qed.
Lemma position_fun {A} (x : A) l n m : position x l n -> position x l m -> n = m.
Proof.
  intros (p & q & E & N & <-) (p' & q' & E' & N' & <-). rewrite E in E'. clear E l.
  revert p' E' N'. induction p as [|a p IH]; intros [|a' p'] E' N'; cbn in *; auto.
  - injection E' as <- _. exfalso. apply N'. now left.
  - injection E' as -> _. exfalso. apply N. now left.
  - injection E' as <- E'. f_equal. apply IH; auto.
Qed.
Lemma position_in {A} (x : A) l n : position x l n -> In x l.
Proof. intros (p & q & -> & _). apply in_or_app. right. now left. Qed.

Lemma first_min_in key l : forall x, In (first_min key x l) (x :: l).
Proof.
  induction l as [|y l IH]; intros x; cbn [first_min]; [now left|]. destruct (key y <? key x)%nat.
  - right. apply IH.
  - destruct (IH x) as [H|H]; [now left|]. right. now right.
Qed.
Lemma first_min_le key l : forall x y, In y (x :: l) -> (key (first_min key x l) <= key y)%nat.
Proof.
  induction l as [|z l IH]; intros x y I; cbn [first_min].
  - destruct I as [->|[]]. lia.
  - destruct (Nat.ltb_spec (key z) (key x)) as [H|H].
    + destruct I as [<-|I]; [|now apply IH]. pose proof (IH z z (or_introl eq_refl)). lia.
    + destruct I as [<-|[<-|I]]; [now apply IH; left| |apply IH; now right]. pose proof (IH x x (or_introl eq_refl)). lia.
Qed.

Lemma select_choice env offered available : (forall l, Permutation (env_set_order env l) l) ->
  choice offered available (select_subprotocol env offered available).
Proof.
  intros O. unfold select_subprotocol.
  set (common := filter (fun p => existsb (str_eqb p) available) offered).
  assert (C : forall p, In p (env_set_order env (dedup common)) <-> In p offered /\ In p available).
  { intros p. split.
    - intros I. apply (Permutation_in _ (O _)), dedup_in, filter_In in I as [I1 I2]. split; [exact I1|]. now apply existsb_str.
    - intros [I1 I2]. apply (Permutation_in p (Permutation_sym (O (dedup common)))), dedup_in, filter_In. split; [exact I1|].
      now apply existsb_str. }
  destruct (env_set_order env (dedup common)) as [|p ps].
  - cbn [choice]. intros q I J. now apply (C q).
  - cbn [choice]. set (key := fun p => _). pose proof (first_min_in key ps p) as I. apply C in I as [I1 I2].
    exists (index_of offered (first_min key p ps)), (index_of available (first_min key p ps)).
    split; [now apply index_position|]. split; [now apply index_position|].
    intros q i j Hi Hj. assert (Iq : In q (p :: ps)) by (apply C; split; eapply position_in; eassumption).
    apply (first_min_le key) in Iq. unfold key in Iq at 1 3.
    rewrite (position_fun q _ _ _ Hi (index_position _ _ (position_in _ _ _ Hi))).
    rewrite (position_fun q _ _ _ Hj (index_position _ _ (position_in _ _ _ Hj))). exact Iq.
Qed.

Lemma process_subprotocol_chosen {E} env (cfg : server_config E) l sp : (forall l, Permutation (env_set_order env l) l) ->
  process_subprotocol env cfg (headers_of l) = Ok sp -> chosen (sc_subprotocols cfg) l sp.
Proof.
  intros O. unfold process_subprotocol, chosen. rewrite (rep_get_all _ _ _ (rep_of l)).
  destruct (values l (s "Sec-WebSocket-Protocol")) as [|v vs].
  - intros H. apply ok_inj in H. subst sp. destruct (sc_subprotocols cfg) as [[|p ps]|]; try reflexivity.
    exists []. split; [constructor|]. intros q [].
  - destruct (sc_subprotocols cfg) as [[|p ps]|]; try (intros H; apply ok_inj in H; now subst sp).
    destruct (parse_all parse_subprotocol (v :: vs)) as [offers|e] eqn:Pa; cbn [rbind]; [|discriminate].
    intros H. apply ok_inj in H. subst sp. exists offers. split; [now apply (parse_all_iff _ _ _ C34_subprotocol_grammar)|].
    now apply select_choice.
Qed.

(* ---- the server's extensions ---- *)

Section Server.
Context {E : Type}.

Lemma match_factory_spec (fs : list (server_factory E)) name p acc r : match_factory fs name p acc = Ok r ->
  match r with Some (answer, x) => server_accepts fs name p acc answer x | None => server_declines fs name p acc end.
Proof.
  induction fs as [|f fs IH]; cbn [match_factory].
  - intros H. apply ok_inj in H. subst r. intros g [].
  - assert (Skip : (sf_name f = name -> exists e, sf_process_request_params f p acc = Raise e) ->
      match_factory fs name p acc = Ok r ->
      match r with Some (answer, x) => server_accepts (f :: fs) name p acc answer x | None => server_declines (f :: fs) name p acc end).
    { intros D H. apply IH in H. destruct r as [[answer x]|].
      - destruct H as (pre & g & post & -> & Hn & Hp & Hd). exists (f :: pre), g, post. split; [reflexivity|]. split; [exact Hn|]. split; [exact Hp|].
        intros h [<-|I]; auto.
      - intros h [<-|I]; auto. }
    destruct (str_eqb (sf_name f) name) eqn:Hn; cbn [negb].
    + apply str_eqb_eq in Hn. destruct (sf_process_request_params f p acc) as [[answer x]|e] eqn:Hp.
      * intros H. apply ok_inj in H. subst r. exists [], f, fs. split; [reflexivity|]. split; [exact Hn|]. split; [exact Hp|]. intros g [].
      * destruct (is_negotiation_error e); [|discriminate]. apply Skip. eauto.
    + apply Skip. intros H. apply str_eqb_eq in H. congruence.
Qed.

Lemma match_extensions_spec (fs : list (server_factory E)) offers : forall ha acc ha' exts,
  match_extensions fs offers ha acc = Ok (ha', exts) ->
  exists answers, ha' = ha ++ answers /\ server_negotiates fs acc offers answers exts.
Proof.
  induction offers as [|[name p] offers IH]; intros ha acc ha' exts; cbn [match_extensions].
  - intros H. apply ok_inj in H. injection H as -> ->. exists []. split; [now rewrite app_nil_r|constructor].
  - destruct (match_factory fs name p acc) as [r|e] eqn:M; cbn [rbind]; [|discriminate]. apply match_factory_spec in M.
    destruct r as [[answer x]|]; intros H; apply IH in H as (answers & -> & N).
    + exists ((name, answer) :: answers). split; [now rewrite <- app_assoc|]. now apply (sn_accept fs acc name p answer x).
    + exists answers. split; [reflexivity|]. now constructor.
Qed.

Lemma process_extensions_answers (cfg : server_config E) l eh exts : process_extensions cfg (headers_of l) = Ok (eh, exts) ->
  exists answers, answers_for (sc_extensions cfg) l answers exts /\
    eh = match answers with [] => None | _ => Some (build_extension answers) end.
Proof.
  unfold process_extensions, answers_for. rewrite (rep_get_all _ _ _ (rep_of l)).
  destruct (values l (s "Sec-WebSocket-Extensions")) as [|v vs].
  - cbn [rbind]. intros H. apply ok_inj in H. injection H as <- <-. exists []. split; [|reflexivity].
    destruct (sc_extensions cfg) as [[|f fs]|]; auto. exists []. split; constructor.
  - destruct (sc_extensions cfg) as [[|f fs]|].
    + cbn [rbind]. intros H. apply ok_inj in H. injection H as <- <-. exists []. auto.
    + destruct (parse_all parse_extension (v :: vs)) as [offers|e] eqn:Pa; cbn [rbind]; [|discriminate].
      destruct (match_extensions (f :: fs) offers [] []) as [[ha' exts']|e] eqn:M; cbn [rbind]; [|discriminate].
      intros H. apply ok_inj in H. injection H as <- <-. apply match_extensions_spec in M as (answers & -> & N). cbn [app].
      exists answers. split; [|reflexivity]. exists offers. split; [|exact N]. now apply (parse_all_iff _ _ _ C34_extension_grammar).
    + cbn [rbind]. intros H. apply ok_inj in H. injection H as <- <-. exists []. auto.
Qed.
End Server.

(* ---- the client ---- *)

Section Client.
Context {E : Type} (cfg : client_config E) (key : str).

Definition polite_client (f : client_factory E) : Prop :=
  forall p acc e, cf_process_response_params f p acc = Raise e -> is_negotiation_error e = true.
Definition polite_clients (o : option (list (client_factory E))) : Prop :=
  forall fs f, o = Some fs -> In f fs -> polite_client f.

Lemma match_response_spec (fs : list (client_factory E)) name p acc : (forall f, In f fs -> polite_client f) ->
  match match_response fs name p acc with
  | Ok (Some x) => client_accepts fs name p acc x
  | Ok None => forall g, In g fs -> cf_name g = name -> exists e, cf_process_response_params g p acc = Raise e
  | Raise _ => False
  end.
Proof.
  induction fs as [|f fs IH]; intros P; cbn [match_response]; [intros g []|].
  specialize (IH (fun g I => P g (or_intror I))).
  assert (Skip : (cf_name f = name -> exists e, cf_process_response_params f p acc = Raise e) ->
    match match_response fs name p acc with
    | Ok (Some x) => client_accepts (f :: fs) name p acc x
    | Ok None => forall g, In g (f :: fs) -> cf_name g = name -> exists e, cf_process_response_params g p acc = Raise e
    | Raise _ => False
    end).
  { intros D. destruct (match_response fs name p acc) as [[x|]|e]; [| |exact IH].
    - destruct IH as (pre & g & post & -> & Hn & Hp & Hd). exists (f :: pre), g, post. split; [reflexivity|]. split; [exact Hn|]. split; [exact Hp|].
      intros h [<-|I]; auto.
    - intros h [<-|I]; auto. }
  destruct (str_eqb (cf_name f) name) eqn:Hn; cbn [negb].
  - apply str_eqb_eq in Hn. destruct (cf_process_response_params f p acc) as [x|e] eqn:Hp.
    + exists [], f, fs. split; [reflexivity|]. split; [exact Hn|]. split; [exact Hp|]. intros g [].
    + rewrite (P f (or_introl eq_refl) _ _ _ Hp). apply Skip. eauto.
  - apply Skip. intros H. apply str_eqb_eq in H. congruence.
Qed.

Lemma app_cons_inv {A} (pre : list A) f post pre' f' post' : pre ++ f :: post = pre' ++ f' :: post' ->
  (pre = pre' /\ f = f' /\ post = post') \/ In f pre' \/ In f' pre.
Proof.
  revert pre'. induction pre as [|a pre IH]; intros [|a' pre'] H; cbn in *.
  - injection H as -> ->. auto.
  - injection H as -> _. auto.
  - injection H as -> _. auto.
  - injection H as -> H. destruct (IH _ H) as [(-> & -> & ->)|[J|J]]; auto.
Qed.
Lemma client_accepts_fun (fs : list (client_factory E)) name p acc x y : client_accepts fs name p acc x -> client_accepts fs name p acc y -> x = y.
Proof.
  intros (pre & f & post & -> & Hn & Hp & Hd) (pre' & f' & post' & H & Hn' & Hp' & Hd').
  apply app_cons_inv in H as [(-> & -> & ->)|[J|J]].
  - congruence.
  - destruct (Hd' f J Hn). congruence.
  - destruct (Hd f' J Hn'). congruence.
Qed.

Lemma match_responses_spec (fs : list (client_factory E)) answers : (forall f, In f fs -> polite_client f) -> forall acc,
  match match_responses fs answers acc with
  | Ok exts => client_negotiates fs acc answers exts
  | Raise e => is_negotiation_error e = true /\ forall exts, ~ client_negotiates fs acc answers exts
  end.
Proof.
  intros P. induction answers as [|[name p] answers IH]; intros acc; cbn [match_responses]; [constructor|].
  pose proof (match_response_spec fs name p acc P) as M. destruct (match_response fs name p acc) as [[x|]|e]; cbn [rbind]; [| |contradiction].
  - specialize (IH (acc ++ [x])). destruct (match_responses fs answers (acc ++ [x])) as [exts|e].
    + econstructor; eassumption.
    + destruct IH as [A B]. split; [exact A|]. intros exts H. inversion H as [|? ? ? y ? ? Ha Hn]; subst. eapply B. rewrite (client_accepts_fun _ _ _ _ _ _ M Ha). eassumption.
  - split; [reflexivity|]. intros exts H. inversion H as [|? ? ? y ? ? Ha Hne]; subst. destruct Ha as (pre & g & post & -> & Hn & Hp & _).
    destruct (M g) as [e He]; [apply in_or_app; right; now left|exact Hn|]. congruence.
Qed.
Lemma client_negotiates_fun (fs : list (client_factory E)) acc answers exts exts' : client_negotiates fs acc answers exts ->
  client_negotiates fs acc answers exts' -> exts = exts'.
Proof.
  induction 1 as [|acc name p x answers exts Ha Hn IH]; intros H'; inversion H' as [|? ? ? y ? ? Ha' Hn']; subst; auto. apply IH.
  rewrite (client_accepts_fun _ _ _ _ _ _ Ha Ha'). assumption.
Qed.

Definition extensions_ok (l : pairs) (exts : list E) : Prop :=
  match values l (s "Sec-WebSocket-Extensions") with
  | [] => exts = []
  | vs => exists fs answers, cc_extensions cfg = Some fs /\ combined extension_item vs answers /\ client_negotiates fs [] answers exts
  end.
Lemma response_extensions_view l : polite_clients (cc_extensions cfg) ->
  match process_response_extensions cfg (headers_of l) with
  | Ok exts => extensions_ok l exts
  | Raise e => is_invalid_handshake e = true /\ forall exts, ~ extensions_ok l exts
  end.
Proof.
  intros P. unfold process_response_extensions, extensions_ok. rewrite (rep_get_all _ _ _ (rep_of l)).
  destruct (values l (s "Sec-WebSocket-Extensions")) as [|v vs]; [reflexivity|].
  destruct (cc_extensions cfg) as [fs|] eqn:Cx.
  - destruct (parse_all parse_extension (v :: vs)) as [answers|e] eqn:Pa; cbn [rbind].
    + apply (parse_all_iff _ _ _ C34_extension_grammar) in Pa.
      pose proof (match_responses_spec fs answers (fun g I => P fs g eq_refl I) []) as M. destruct (match_responses fs answers []) as [exts|e].
      * exists fs, answers. auto.
      * destruct M as [A B]. split; [destruct e; try discriminate A; reflexivity|]. intros exts (fs' & answers' & H1 & H2 & H3).
        injection H1 as <-. rewrite (combined_fun _ _ _ C34_extension_grammar _ _ _ H2 Pa) in H3. now apply (B exts).
    + apply (parse_all_fails _ _ _ C34_extension_grammar) in Pa as (Nc & v' & error & pos & I & Ha & ->).
      split; [reflexivity|]. intros exts (fs' & answers' & H1 & H2 & H3). now apply Nc in H2.
  - split; [reflexivity|]. intros exts (fs' & answers' & H1 & _). discriminate.
Qed.

Definition subprotocol_ok (l : pairs) (sp : option str) : Prop :=
  match values l (s "Sec-WebSocket-Protocol") with
  | [] => sp = None
  | vs => exists ps p, cc_subprotocols cfg = Some ps /\ combined token_item vs [p] /\ In p ps /\ sp = Some p
  end.
Lemma combined_nonempty v vs l : combined token_item (v :: vs) l -> l <> [].
Proof.
  inversion 1; subst. destruct H2 as (z & w & _ & _ & Hl). intros E0. apply app_eq_nil in E0 as [-> _]. clear -Hl.
  remember (@nil str) as l eqn:El. induction Hl; [auto|discriminate].
Qed.
Lemma response_subprotocol_view l :
  match process_response_subprotocol cfg (headers_of l) with
  | Ok sp => subprotocol_ok l sp
  | Raise e => is_invalid_handshake e = true /\ forall sp, ~ subprotocol_ok l sp
  end.
Proof.
  unfold process_response_subprotocol, subprotocol_ok. rewrite (rep_get_all _ _ _ (rep_of l)).
  destruct (values l (s "Sec-WebSocket-Protocol")) as [|v vs]; [reflexivity|].
  destruct (cc_subprotocols cfg) as [ps|] eqn:Cx.
  - destruct (parse_all parse_subprotocol (v :: vs)) as [l'|e] eqn:Pa; cbn [rbind].
    + apply (parse_all_iff _ _ _ C34_subprotocol_grammar) in Pa.
      assert (F : forall sp, (exists ps' p, Some ps = Some ps' /\ combined token_item (v :: vs) [p] /\ In p ps' /\ sp = Some p) -> exists p, l' = [p] /\ In p ps).
      { intros sp (ps' & p & H1 & H2 & H3 & _). injection H1 as <-. exists p. split; [|exact H3].
        now apply (combined_fun _ _ _ C34_subprotocol_grammar _ _ _ Pa). }
      destruct l' as [|p [|q l']].
      * now apply combined_nonempty in Pa.
      * destruct (existsb (str_eqb p) ps) eqn:Ex.
        -- apply existsb_str in Ex. exists ps, p. auto.
        -- split; [reflexivity|]. intros sp H. apply F in H as (p' & H1 & H2). injection H1 as <-. apply existsb_str in H2. congruence.
      * split; [reflexivity|]. intros sp H. apply F in H as (p' & H1 & H2). discriminate.
    + apply (parse_all_fails _ _ _ C34_subprotocol_grammar) in Pa as (Nc & v' & error & pos & I & Ha & ->).
      split; [reflexivity|]. intros sp (ps' & p & _ & H & _). now apply Nc in H.
  - split; [reflexivity|]. intros sp (ps' & p & H & _). discriminate.
Qed.

Lemma accept_key_for : Forall (fun c => (c < 128)%N) key -> accept_key key = Ok (accept_for key).
Proof.
  intros A. unfold accept_key, accept_for, GUID. rewrite utf8_encode_ascii; [reflexivity|]. apply Forall_app. split; [exact A|].
  apply Forall_forall. intros x I. repeat (destruct I as [<-|I]; [reflexivity|]). destruct I.
Qed.

Lemma check_accept_view l : Forall (fun c => (c < 128)%N) key ->
  match check_accept key (headers_of l) with
  | Ok _ => values l (s "Sec-WebSocket-Accept") = [accept_for key]
  | Raise e => is_invalid_handshake e = true /\ values l (s "Sec-WebSocket-Accept") <> [accept_for key]
  end.
Proof.
  intros A. unfold check_accept. pose proof (get_single_view l (s "Sec-WebSocket-Accept")) as G.
  destruct (get_single _ _) as [v|e]; cbn [rbind].
  - rewrite accept_key_for by exact A. cbn [rbind]. destruct (str_eqb v (accept_for key)) eqn:H.
    + apply str_eqb_eq in H. now subst v.
    + split; [reflexivity|]. intros K. rewrite G in K. injection K as ->. rewrite (proj2 (str_eqb_eq _ _) eq_refl) in H. discriminate.
  - destruct G as ([G|(v & v' & vs & G)] & (B & _) & _); (split; [exact B|]); rewrite G; discriminate.
Qed.

Definition valid_for_client (r : response) (l : pairs) (exts : list E) (sp : option str) : Prop :=
  valid_response (accept_for key) (cc_extensions cfg) (cc_subprotocols cfg) (resp_status r) l exts sp.

Lemma process_response_view r l (c : conn E) : resp_headers r = headers_of l -> polite_clients (cc_extensions cfg) ->
  Forall (fun c => (c < 128)%N) key ->
  match process_response cfg key r c with
  | (c', Ok _) => exists exts sp, valid_for_client r l exts sp /\ c' = set_subprotocol (set_exts c exts) sp
  | (c', Raise e) => is_invalid_handshake e = true /\ (forall exts sp, ~ valid_for_client r l exts sp) /\
      exists exts, c' = set_exts c exts
  end.
Proof.
  intros Hh P A. unfold process_response. rewrite Hh.
  assert (Id : exists exts, c = set_exts c exts) by (exists (c_exts c); now destruct c).
  destruct (Z.eqb_spec (resp_status r) 101) as [Hs|Hs]; cbn [negb].
  2:{ split; [reflexivity|]. split; [|exact Id]. intros exts sp []. auto. }
  pose proof (check_upgrade_view l) as Vu. destruct (check_upgrade (headers_of l)) as [[]|e]; cbn [rbind].
  2:{ destruct Vu as (N & C & _). split; [destruct C as [[H _]|[[H _] _]]; [destruct e; try discriminate H; reflexivity|exact H]|].
      split; [|exact Id]. intros exts sp []. auto. }
  destruct Vu as (Vc & Vu & _).
  pose proof (check_accept_view l A) as Va. destruct (check_accept key (headers_of l)) as [[]|e]; cbn [rbind].
  2:{ destruct Va as [Va N]. split; [exact Va|]. split; [|exact Id]. intros exts sp []. auto. }
  pose proof (response_extensions_view l P) as Ve. destruct (process_response_extensions cfg (headers_of l)) as [exts|e].
  2:{ destruct Ve as [Ve N]. split; [exact Ve|]. split; [|exact Id]. intros exts sp [_ _ _ _ H _]. now apply (N exts). }
  pose proof (response_subprotocol_view l) as Vs. destruct (process_response_subprotocol cfg (headers_of l)) as [sp|e].
  2:{ destruct Vs as [Vs N]. split; [exact Vs|]. split; [|eauto]. intros exts' sp [_ _ _ _ _ H]. now apply (N sp). }
  exists exts, sp. split; [|reflexivity]. constructor; assumption.
Qed.
End Client.
