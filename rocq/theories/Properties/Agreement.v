(* C41: a client and a server of this library agree after the handshake. *)
From Verif Require Import Base.Prelude Base.PreludeFacts Model.Utils Model.Datastructures Model.Headers Model.Streams Model.Http11 Model.Frames
  Model.Connection Model.Handshake Model.Server Model.Client Model.PermessageDeflate Spec.Rfc6455 Spec.FrameSpec Spec.Messages Spec.History Spec.Rfc7230 Spec.Multimap
  Spec.Http1 Spec.Handshake Spec.Deflate Spec.Negotiated
  Proofs.AtomicFacts Proofs.MultimapFacts Proofs.HeadersFacts Proofs.KeyFacts Proofs.HandshakeFacts Proofs.NegotiationFacts Proofs.AcceptFacts Proofs.HandshakeRun
  Proofs.AgreementFacts Proofs.Http11Facts Proofs.DeflateFacts Properties.HeaderGrammar Properties.Connection Properties.Http Properties.Handshake Properties.Deflate.
Local Open Scope Z_scope.

(* Factories for permessage-deflate, with any configuration whose window sizes are all in
   [sizes], which zlib accepts for compression. *)
Definition client_deflate {zl} (sizes : Z -> Prop) (f : client_factory (pmd zl)) : Prop :=
  exists a b c d st cfg, client_pmd_config a b c d st = Ok cfg /\ f = client_pmd (fun _ => pmd_name) id cfg /\
    (forall n, c = Some n \/ d = Some (Bits n) -> sizes n) /\ (forall n, sizes n -> can_compress zl n st).
Definition server_deflate {zl} (sizes : Z -> Prop) (f : server_factory (pmd zl)) : Prop :=
  exists a b c d st cfg, server_pmd_config a b c d st = Ok cfg /\ f = server_pmd (fun _ => pmd_name) id cfg /\
    (forall n, c = Some n \/ d = Some (Bits n) -> sizes n) /\ (forall n, sizes n -> can_compress zl n st).

(* The client doesn't let the server limit its window; the server requires it. *)
Definition unlimited {zl} (f : client_factory (pmd zl)) : Prop :=
  exists a b c st cfg, client_pmd_config a b c None st = Ok cfg /\ f = client_pmd (fun _ => pmd_name) id cfg.
Definition limits {zl} (g : server_factory (pmd zl)) : Prop :=
  exists a b c d st cfg, server_pmd_config a b c (Some d) st = Ok cfg /\ g = server_pmd (fun _ => pmd_name) id cfg.

(* ---- negotiation ---- *)

Section Negotiation.
Context {zl : zlib} (sizes : Z -> Prop).
Hypothesis S15 : sizes 15.
Hypothesis Cd : can_decompress zl.
Notation cf := (client_factory (pmd zl)).
Notation sf := (server_factory (pmd zl)).
Definition offer (f : cf) : ext_header := (cf_name f, cf_request_params f).

Lemma deflate_token l : Forall (fun p : str * option str => token (fst p) /\ forall v, snd p = Some v -> token v) l -> token_extension (pmd_name, l).
Proof.
  intros F. split; [apply token_class; split; [discriminate|repeat constructor]|]. intros p I. rewrite Forall_forall in F. apply F, I.
Qed.
Lemma build_tokens t : in_range t -> Forall (fun p : str * option str => token (fst p) /\ forall v, snd p = Some v -> token v) (build_parameters t).
Proof.
  destruct t as [[[a b] c] d]. intros [R1 R2].
  assert (Tn : forall n, 8 <= n <= 15 -> token (str_of_Z n)).
  { intros n Hn. revert n Hn. apply range_cases; (apply token_class; split; [discriminate|repeat constructor]). }
  unfold build_parameters. rewrite !Forall_app.
  assert (Tk : forall x, token (s x) <-> token (s x)) by tauto.
  split; [destruct a; [|constructor]; constructor; [|constructor]; split; [apply token_class; split; [discriminate|repeat constructor]|discriminate]|].
  split; [destruct b; [|constructor]; constructor; [|constructor]; split; [apply token_class; split; [discriminate|repeat constructor]|discriminate]|].
  split.
  - destruct c as [n|]; [|constructor]. destruct (n =? 0); [constructor|]. constructor; [|constructor].
    split; [apply token_class; split; [discriminate|repeat constructor]|]. cbn [snd]. intros v Hv. apply some_inj in Hv. subst v. auto.
  - destruct d as [[|n]|]; [|destruct (n =? 0); [constructor|]|constructor]; (constructor; [|constructor]); (split; [apply token_class; split; [discriminate|repeat constructor]|]); cbn [snd]; [discriminate|].
    intros v Hv. apply some_inj in Hv. subst v. auto.
Qed.
Lemma offer_token f : client_deflate sizes f -> token_extension (offer f).
Proof.
  intros (a & b & c & d & st & cfg & Hc & -> & _). apply client_config_ok in Hc as (K & _). apply deflate_token.
  cbn [offer cf_request_params client_pmd snd]. apply build_tokens. exact (request_range _ _ K).
Qed.

(* f offers, g answers with a *)
Definition answered (f : cf) (g : sf) (a : list (str * option str)) (x : pmd zl) : Prop :=
  sf_process_request_params g (cf_request_params f) [] = Ok (a, x).
Lemma factory_answers f gs : client_deflate sizes f -> Forall (server_deflate sizes) gs ->
  exists r, match_factory gs pmd_name (cf_request_params f) [] = Ok r /\
    match r with
    | Some (a, x) => exists g, In g gs /\ answered f g a x
    | None => forall g, In g gs -> exists e, sf_process_request_params g (cf_request_params f) [] = Raise e
    end.
Proof.
  intros Hf. induction 1 as [|g gs Hg Hgs IH]; cbn [match_factory]; [exists None; split; [reflexivity|intros g []]|].
  assert (Nm : sf_name g = pmd_name) by (destruct Hg as (a & b & c & d & st & cfg & _ & -> & _); reflexivity).
  rewrite Nm, (proj2 (str_eqb_eq pmd_name pmd_name) eq_refl). cbn [negb].
  assert (D : match sf_process_request_params g (cf_request_params f) [] with Ok _ => True | Raise e => is_negotiation_error e = true end).
  { destruct Hf as (a & b & c & d & st & cfg & Hc & -> & Sz & Cc), Hg as (a' & b' & c' & d' & st' & cfg' & Hc' & -> & Sz' & Cc').
    pose proof (C46_offer_accepted_partial zl _ _ (fun _ : pmd zl => pmd_name) id (fun _ : pmd zl => pmd_name) id a b c d st a' b' c' d' st' cfg cfg' [] Hc Hc') as H.
    destruct (match d', d with Some _, None => true | _, _ => false end).
    - destruct H as (e & -> & He); [intros e []|exact Cd| |exact He]. intros n [->|[H|H]]; apply Cc'; auto.
    - destruct H as (an & x & ->); [intros e []|exact Cd| |exact Logic.I]. intros n [->|[H|H]]; apply Cc'; auto. }
  destruct (sf_process_request_params g (cf_request_params f) []) as [[a x]|e] eqn:Hg2.
  - exists (Some (a, x)). split; [reflexivity|]. exists g. split; [now left|exact Hg2].
  - rewrite D. destruct IH as (r & -> & IH). exists r. split; [reflexivity|]. destruct r as [[a x]|].
    + destruct IH as (g' & I' & H'). exists g'. split; [now right|exact H'].
    + intros g' [<-|I']; eauto.
Qed.
Lemma refused (f : cf) (g : sf) e : client_deflate sizes f -> server_deflate sizes g -> sf_process_request_params g (cf_request_params f) [] = Raise e -> unlimited f /\ limits g.
Proof.
  intros (a & b & c & d & st & cfg & Hc & -> & Sz & Cc) (a' & b' & c' & d' & st' & cfg' & Hc' & -> & Sz' & Cc') R.
  pose proof (C46_offer_accepted_partial zl _ _ (fun _ : pmd zl => pmd_name) id (fun _ : pmd zl => pmd_name) id a b c d st a' b' c' d' st' cfg cfg' [] Hc Hc') as H.
  destruct d' as [d'|]; [destruct d as [d|]|].
  2: { split; [exists a, b, c, st, cfg; auto|exists a', b', c', d', st', cfg'; auto]. }
  all: destruct H as (an & x & H); [intros ? []|exact Cd|intros n [->|[H|H]]; apply Cc'; auto|congruence].
Qed.
Lemma factory_duplicate p (x : pmd zl) (gs : list sf) : Forall (server_deflate sizes) gs -> match_factory gs pmd_name p [x] = Ok None.
Proof.
  induction 1 as [|g gs Hg Hgs IH]; cbn [match_factory]; [reflexivity|].
  destruct Hg as (a & b & c & d & st & cfg & _ & -> & _). cbn [sf_name server_pmd sf_process_request_params].
  rewrite (proj2 (str_eqb_eq pmd_name pmd_name) eq_refl). cbn [negb]. rewrite process_request_params_eq. exact IH.
Qed.
Lemma extensions_duplicate (gs : list sf) ha (x : pmd zl) (fs : list cf) : Forall (client_deflate sizes) fs -> Forall (server_deflate sizes) gs ->
  match_extensions gs (map offer fs) ha [x] = Ok (ha, [x]).
Proof.
  intros Hfs Hgs. revert ha. induction Hfs as [|f fs Hf _ IH]; intros ha; [reflexivity|]. cbn [map match_extensions offer].
  replace (cf_name f) with pmd_name by (destruct Hf as (a & b & c & d & st & cfg & _ & -> & _); reflexivity).
  rewrite factory_duplicate by exact Hgs. cbn [rbind]. apply IH.
Qed.
(* The server accepts the first offer that it can. *)
Lemma extensions_answered (gs : list sf) (fs : list cf) : Forall (client_deflate sizes) fs -> Forall (server_deflate sizes) gs ->
  match_extensions gs (map offer fs) [] [] = Ok ([], []) /\ (forall f g, In f fs -> In g gs -> unlimited f /\ limits g) \/
  exists pre f post g a x, fs = pre ++ f :: post /\ In g gs /\ answered f g a x /\
    (forall h, In h pre -> exists e, sf_process_request_params g (cf_request_params h) [] = Raise e) /\
    match_extensions gs (map offer fs) [] [] = Ok ([(pmd_name, a)], [x]).
Proof.
  intros Hfs Hgs. induction Hfs as [|f fs Hf Hfs IH]; [left; split; [reflexivity|intros f g []]|]. cbn [map match_extensions offer].
  replace (cf_name f) with pmd_name by (destruct Hf as (a & b & c & d & st & cfg & _ & -> & _); reflexivity).
  destruct (factory_answers f gs Hf Hgs) as (r & -> & H). cbn [rbind]. destruct r as [[a x]|].
  - right. destruct H as (g & Ig & H). exists [], f, fs, g, a, x. split; [reflexivity|]. split; [exact Ig|]. split; [exact H|].
    split; [intros h []|]. cbn [app]. now apply extensions_duplicate.
  - destruct IH as [[IH Un]|(pre & f' & post & g & a & x & -> & Ig & Ha & Hp & IH)].
    { left. split; [exact IH|]. intros f' g [<-|I0] Ig; [|now apply Un]. destruct (H g Ig) as [e He]. rewrite Forall_forall in Hgs. exact (refused f g e Hf (Hgs g Ig) He). }
    right.
    exists (f :: pre), f', post, g, a, x. split; [reflexivity|]. split; [exact Ig|]. split; [exact Ha|]. split; [|exact IH].
    intros h [<-|I0]; auto.
Qed.
(* What the two sides create can compress. *)
Lemma offer_ready a b c d st a' b' c' d' st' (ccfg scfg : pmd_config zl) an x :
  client_pmd_config a b c d st = Ok ccfg -> server_pmd_config a' b' c' d' st' = Ok scfg ->
  (forall n, n = 15 \/ c = Some n \/ c' = Some n -> can_compress zl n st') ->
  sf_process_request_params (server_pmd (fun _ : pmd zl => pmd_name) id scfg) (cf_request_params (client_pmd (fun _ : pmd zl => pmd_name) id ccfg)) [] = Ok (an, x) ->
  ready x.
Proof.
  intros Hc Hs Cc Rq. apply client_config_ok in Hc as (Kc & <- & <- & <- & <- & <-). apply server_config_ok in Hs as (Kc' & <- & <- & <- & <- & <-).
  cbn [sf_process_request_params server_pmd cf_request_params client_pmd] in Rq. rewrite process_request_params_eq in Rq. cbn [is_duplicate existsb] in Rq.
  rewrite extract_build in Rq; [|exact (request_range _ _ Kc)|reflexivity]. cbn [rbind] in Rq.
  pose proof (server_answer_view scfg (g_snct ccfg) (g_cnct ccfg) (g_smwb ccfg) (g_cmwb ccfg)) as V.
  destruct (server_answer scfg _) as [[[[a1 b1] c1] d1]|e] eqn:Sa; [|discriminate]. cbn [rbind] in Rq.
  destruct (server_answer_range _ _ _ Kc' (request_range _ _ Kc) Sa) as [[R1 R2] N1].
  destruct (server_init scfg _) as [ps|] eqn:Si; [|discriminate]. cbn [rbind] in Rq. apply ok_inj, pair_equal_spec in Rq as [_ Rq]. unfold id in Rq. subst ps.
  unfold server_init in Si. eexists _, _, _, _, _. split; [exact Si|]. apply Cc. destruct V as (_ & _ & V & _). unfold server_smwb in V.
  destruct c1 as [n|]; [|auto]. rewrite or_15_in by auto.
  destruct (g_smwb scfg) as [y|]; [|auto]. destruct (g_smwb ccfg) as [z|]; [destruct (y <? z)|]; auto.
Qed.
Lemma answer_ready a b c d st a' b' c' d' st' (ccfg scfg : pmd_config zl) an x y :
  client_pmd_config a b c d st = Ok ccfg -> server_pmd_config a' b' c' d' st' = Ok scfg ->
  (forall n, n = 15 \/ d = Some (Bits n) \/ d' = Some (Bits n) -> can_compress zl n st) ->
  sf_process_request_params (server_pmd (fun _ : pmd zl => pmd_name) id scfg) (cf_request_params (client_pmd (fun _ : pmd zl => pmd_name) id ccfg)) [] = Ok (an, x) ->
  cf_process_response_params (client_pmd (fun _ : pmd zl => pmd_name) id ccfg) an [] = Ok y ->
  ready y.
Proof.
  intros Hc Hs Cc Rq Rs. apply client_config_ok in Hc as (Kc & <- & <- & <- & <- & <-). apply server_config_ok in Hs as (Kc' & <- & <- & <- & <- & <-).
  cbn [sf_process_request_params server_pmd cf_request_params client_pmd cf_process_response_params] in *.
  rewrite process_request_params_eq in Rq. cbn [is_duplicate existsb] in Rq.
  rewrite extract_build in Rq; [|exact (request_range _ _ Kc)|reflexivity]. cbn [rbind] in Rq.
  destruct (server_answer scfg _) as [[[[a1 b1] c1] d1]|] eqn:Sa; [|discriminate]. cbn [rbind] in Rq.
  destruct (server_init scfg _) as [ps|]; [|discriminate]. cbn [rbind] in Rq. apply ok_inj, pair_equal_spec in Rq as [<- _].
  destruct (server_answer_range scfg _ _ Kc' (request_range _ _ Kc) Sa) as [Range Nt'].
  rewrite process_response_params_eq in Rs. cbn [is_duplicate existsb] in Rs.
  rewrite extract_build in Rs; [|exact Range|intros; contradiction]. cbn [rbind] in Rs.
  rewrite (answer_fits ccfg scfg _ Kc Kc' Sa) in Rs. cbn [rbind] in Rs. destruct Range as [R1 R2]. cbn [snd] in Nt'.
  destruct (client_init ccfg _) as [pc|] eqn:Ci; [|discriminate]. cbn [rbind] in Rs. apply ok_inj in Rs. unfold id in Rs. subst pc.
  unfold client_init in Ci. eexists _, _, _, _, _. split; [exact Ci|]. apply Cc.
  pose proof (server_answer_view scfg (g_snct ccfg) (g_cnct ccfg) (g_smwb ccfg) (g_cmwb ccfg)) as V. rewrite Sa in V.
  destruct V as (_ & _ & _ & V). unfold server_cmwb in V. destruct d1 as [[|n]|]; [congruence| |auto]. rewrite bits_or_15_in by auto.
  destruct (g_cmwb scfg) as [z|]; destruct (g_cmwb ccfg) as [[|w]|]; try contradiction; try discriminate; auto.
  destruct z as [|z]; [|destruct (z <? w)]; auto.
Qed.
(* The client takes the answer for the same offer. *)
Lemma answer_taken pre (f : cf) post (g : sf) a (x : pmd zl) : Forall (client_deflate sizes) (pre ++ f :: post) -> server_deflate sizes g -> answered f g a x ->
  (forall h, In h pre -> exists e, sf_process_request_params g (cf_request_params h) [] = Raise e) ->
  token_extension (pmd_name, a) /\
  exists y, match_response (pre ++ f :: post) pmd_name a [] = Ok (Some y) /\ ready x /\ ready y /\ mirrored x y.
Proof.
  intros Hfs Hg Ha Hp. rewrite Forall_app in Hfs. destruct Hfs as [Hpre Hf]. inversion Hf as [|? ? Hf' Hpost]; subst. clear Hf.
  assert (V : exists t p, a = build_parameters t /\ in_range t /\ snd t <> Some BTrue /\ x = p /\
     (forall h : cf, client_deflate sizes h -> (exists e, sf_process_request_params g (cf_request_params h) [] = Raise e) ->
        exists e, cf_process_response_params h a [] = Raise e /\ is_negotiation_error e = true)).
  { destruct Hf' as (fa & fb & fc & fd & st & cfg & Hc & -> & Sz & Cc), Hg as (a' & b' & c' & d' & st' & cfg' & Hc' & -> & Sz' & Cc').
    unfold answered in Ha. cbn [sf_process_request_params server_pmd cf_request_params client_pmd] in Ha.
    pose proof Hc as Kc. apply client_config_ok in Kc as (Kc & _).
    pose proof Hc' as Ks. apply server_config_ok in Ks as (Ks & _ & _ & _ & Gd & _).
    rewrite process_request_params_eq in Ha. cbn [is_duplicate existsb] in Ha.
    rewrite extract_build in Ha; [|exact (request_range _ _ Kc)|reflexivity]. cbn [rbind] in Ha.
    destruct (server_answer cfg' _) as [t|] eqn:Sa; [|discriminate]. cbn [rbind] in Ha. destruct (server_init cfg' t) as [p|]; [|discriminate].
    cbn [rbind] in Ha. apply ok_inj, pair_equal_spec in Ha as [<- <-].
    destruct (server_answer_range cfg' _ _ Ks (request_range _ _ Kc) Sa) as [Range Nt].
    exists t, p. split; [reflexivity|]. split; [exact Range|]. split; [exact Nt|]. split; [reflexivity|].
    intros h (ha & hb & hc & hd & hst & hcfg & Hh & -> & Szh & Cch) [e0 Hr].
    pose proof (C46_offer_accepted_partial zl _ _ (fun _ : pmd zl => pmd_name) id (fun _ : pmd zl => pmd_name) id ha hb hc hd hst a' b' c' d' st' hcfg cfg' [] Hh Hc') as Hof.
    destruct d' as [d'|]; [destruct hd as [hd|]|]; try (destruct Hof as (an & y & Hof); [intros ? []|exact Cd|intros n [->|[H|H]]; apply Cc'; auto|congruence]).
    clear Hof. apply client_config_ok in Hh as (Kh & _ & _ & _ & Hd & _). cbn [cf_process_response_params client_pmd]. rewrite process_response_params_eq. cbn [is_duplicate existsb].
    rewrite extract_build; [|exact Range|intros; contradiction]. cbn [rbind]. destruct t as [[[ta tb] tc] td].
    pose proof (client_answer_view hcfg ta tb tc td) as W. destruct (client_answer hcfg _) as [[[[ua ub] uc] ud]|e]; cbn [rbind].
    - exfalso. destruct W as (_ & _ & _ & W & _). unfold client_cmwb in W. rewrite Hd in W. destruct W as [-> _].
      pose proof (server_answer_view cfg' (g_snct cfg) (g_cnct cfg) (g_smwb cfg) (g_cmwb cfg)) as W. rewrite Sa in W. destruct W as (_ & _ & _ & W).
      unfold server_cmwb in W. rewrite Gd in W. destruct (g_cmwb cfg) as [[|m]|]; try contradiction; try discriminate.
      destruct d' as [|n]; [discriminate|]. destruct (n <? m); discriminate.
    - exists e. split; [reflexivity|apply W]. }
  destruct V as (t & p & Et & Range & Nt & -> & Vh).
  split; [apply deflate_token; rewrite Et; now apply build_tokens|].
  assert (T : exists y, cf_process_response_params f a [] = Ok y /\ (ready p /\ ready y /\ mirrored p y) /\ cf_name f = pmd_name).
  { destruct Hf' as (fa & fb & fc & fd & st & cfg & Hc & -> & Sz & Cc), Hg as (a' & b' & c' & d' & st' & cfg' & Hc' & -> & Sz' & Cc').
    destruct (C46_answer_accepted_partial zl _ _ _ _ (fun _ : pmd zl => pmd_name) id _ _ _ _ _ _ _ _ _ _ cfg cfg' [] [] a p Hc Hc' Ha) as [y Hy];
      [intros ? []|exact Cd|intros n [->|[H|H]]; apply Cc; auto|].
    exists y. split; [exact Hy|]. split; [|reflexivity].
    split; [exact (offer_ready _ _ _ _ _ _ _ _ _ _ cfg cfg' a p Hc Hc' (fun n H => Cc' n ltac:(destruct H as [->|[H|H]]; auto)) Ha)|].
    split; [exact (answer_ready _ _ _ _ _ _ _ _ _ _ cfg cfg' a p y Hc Hc' (fun n H => Cc n ltac:(destruct H as [->|[H|H]]; auto)) Ha Hy)|].
    destruct (C45_settings_agree zl _ _ _ _ _ _ _ _ _ _ _ _ _ _ _ _ _ _ _ _ _ _ _ Hc Hc' Ha Hy) as (ps & pc & -> & -> & M). exact M. }
  destruct T as (y & Hy & M & Nf). exists y. split; [|exact M].
  clear -Hpre Hp Vh Hy Nf. induction Hpre as [|h pre Hh _ IH]; cbn [app match_response].
  - rewrite Nf, (proj2 (str_eqb_eq pmd_name pmd_name) eq_refl). cbn [negb]. now rewrite Hy.
  - destruct (Vh h Hh (Hp h (or_introl eq_refl))) as (e & -> & ->). destruct (negb (str_eqb (cf_name h) pmd_name)); (apply IH; intros; apply Hp; now right).
Qed.
End Negotiation.

(* ---- C41 ---- *)

Definition all_opt {A} (F : A -> Prop) (o : option (list A)) : Prop := match o with Some l => Forall F l | None => True end.
(* a list that isn't empty, or no list *)
Definition some_or_none {A} (o : option (list A)) : Prop := o <> Some [].
(* headers that can be sent and parsed back *)
Definition sendable (h : headers) : Prop := exists l, h = headers_of l /\ Forall valid_header l /\ (length l <= 256)%nat.

Section Handshake.
Context {zl : zlib} (sizes : Z -> Prop) (senv cenv : environment) (scfg : server_config (pmd zl)) (ccfg : client_config (pmd zl)).
Hypothesis S15 : sizes 15.
Hypothesis Cd : can_decompress zl.
Hypothesis Pc : all_opt (client_deflate sizes) (cc_extensions ccfg).
Hypothesis Ps : all_opt (server_deflate sizes) (sc_extensions scfg).
Hypothesis Nc : some_or_none (cc_extensions ccfg).
Hypothesis Np : some_or_none (cc_subprotocols ccfg).
Hypothesis Tp : all_opt token (cc_subprotocols ccfg).
Hypothesis Xc : no_handshake (match cc_extra_headers ccfg with Some l => l | None => [] end).

Lemma offers_parsed fs : cc_extensions ccfg = Some fs -> Handshake.parse_all parse_extension [build_extension (map offer fs)] = Ok (map offer fs).
Proof.
  intros H. cbn [Handshake.parse_all]. rewrite C31_extension_header_round_trip; [cbn [rbind]; now rewrite app_nil_r| |].
  - destruct fs; [now elim Nc|discriminate].
  - rewrite H in Pc. cbn in Pc. rewrite Forall_map. eapply Forall_impl; [|exact Pc]. intros f. apply offer_token.
Qed.
Lemma client_extensions_agree l lr : values l (s "Sec-WebSocket-Extensions") =
    match cc_extensions ccfg with Some l => [build_extension (map offer l)] | None => [] end ->
  exists eh xs, process_extensions scfg (headers_of l) = Ok (eh, xs) /\
  (xs = [] -> forall fs gs f g, cc_extensions ccfg = Some fs -> sc_extensions scfg = Some gs -> In f fs -> In g gs -> unlimited f /\ limits g) /\
  (values lr (s "Sec-WebSocket-Extensions") = match eh with Some x => [x] | None => [] end ->
   exists ys, process_response_extensions ccfg (headers_of lr) = Ok ys /\ compress_alike xs ys).
Proof.
  intros V. unfold process_extensions, process_response_extensions. rewrite !(rep_get_all _ _ _ (rep_of _)), V.
  destruct (cc_extensions ccfg) as [fs|] eqn:Ef in |- *.
  2: { exists None, []. split; [reflexivity|]. split; [discriminate|]. intros ->. exists []. split; [reflexivity|left; split; reflexivity]. }
  destruct (sc_extensions scfg) as [[|g gs]|] eqn:Eg in |- *; try (exists None, []; split; [reflexivity|]; split; [intros _ fs' gs f g H1 H2 I1 I2; try discriminate H2; apply some_inj in H2; subst gs; destruct I2|]; intros ->; exists []; split; [reflexivity|left; split; reflexivity]).
  rewrite (offers_parsed fs Ef). cbn [rbind].
  assert (Pc' := Pc). rewrite Ef in Pc'. assert (Ps' := Ps). rewrite Eg in Ps'. cbn [all_opt] in Pc', Ps'.
  destruct (extensions_answered sizes S15 Cd (g :: gs) fs Pc' Ps') as [[-> Un]|(pre & f & post & g' & a & x & -> & Ig & Ha & Hp & ->)]; cbn [rbind].
  - exists None, []. split; [reflexivity|].
    split; [intros _ fs' gs' f g1 H1 H2; apply some_inj in H1; apply some_inj in H2; subst; apply Un|]. intros ->. exists []. split; [reflexivity|left; split; reflexivity].
  - rewrite Forall_forall in Ps'. destruct (answer_taken sizes S15 Cd pre f post g' a x Pc' (Ps' g' Ig) Ha Hp) as [Tk (y & Hy & M)].
    exists (Some (build_extension [(pmd_name, a)])), [x]. split; [reflexivity|]. split; [discriminate|]. intros ->.
    cbn [Handshake.parse_all]. rewrite C31_extension_header_round_trip; [|discriminate|constructor; [exact Tk|constructor]]. cbn [rbind app match_responses].
    rewrite Hy. cbn [rbind app match_responses]. exists [y]. split; [reflexivity|]. right. exists x, y. auto.
Qed.
Lemma client_subprotocols_agree l lr : any_order senv -> values l (s "Sec-WebSocket-Protocol") =
    match cc_subprotocols ccfg with Some ps => [build_subprotocol ps] | None => [] end ->
  exists sp, process_subprotocol senv scfg (headers_of l) = Ok sp /\
  (forall p, sp = Some p -> exists ps qs, cc_subprotocols ccfg = Some ps /\ sc_subprotocols scfg = Some qs /\ In p ps /\ In p qs) /\
  (sp = None -> forall ps qs p, cc_subprotocols ccfg = Some ps -> sc_subprotocols scfg = Some qs -> In p ps -> ~ In p qs) /\
  (values lr (s "Sec-WebSocket-Protocol") = match sp with Some x => [x] | None => [] end ->
   process_response_subprotocol ccfg (headers_of lr) = Ok sp).
Proof.
  intros O V. unfold process_subprotocol, process_response_subprotocol. rewrite !(rep_get_all _ _ _ (rep_of _)), V.
  destruct (cc_subprotocols ccfg) as [ps|] eqn:Ef in |- *.
  2: { exists None. split; [reflexivity|]. split; [discriminate|]. split; [discriminate|]. intros ->. reflexivity. }
  destruct (sc_subprotocols scfg) as [[|q qs]|] eqn:Eg in |- *.
  1: { exists None. split; [reflexivity|]. split; [discriminate|]. split; [intros _ ps0 qs0 p H1 H2; injection H2 as <-; auto|]. intros ->. reflexivity. }
  2: { exists None. split; [reflexivity|]. split; [discriminate|]. split; [discriminate|]. intros ->. reflexivity. }
  assert (N : ps <> []) by (intros ->; now elim Np). assert (T := Tp). rewrite Ef in T. cbn [all_opt] in T.
  cbn [Handshake.parse_all]. rewrite C32_subprotocol_header_round_trip by assumption. cbn [rbind]. rewrite app_nil_r.
  exists (select_subprotocol senv ps (q :: qs)). split; [reflexivity|].
  pose proof (select_choice senv ps (q :: qs) O) as C. destruct (select_subprotocol senv ps (q :: qs)) as [p|]; cbn [choice] in C.
  - assert (I : In p ps /\ In p (q :: qs)).
    { destruct C as (i & j & (p1 & p2 & -> & _) & (p3 & p4 & -> & _) & _). rewrite !in_app_iff. cbn [In]. auto. }
    split; [intros p0 H; injection H as <-; exists ps, (q :: qs); tauto|]. split; [discriminate|]. intros ->.
    rewrite Forall_forall in T. cbn [Handshake.parse_all].
    assert (B : parse_subprotocol p = Ok [p]).
    { change p with (build_subprotocol [p]) at 1. apply C32_subprotocol_header_round_trip; [discriminate|]. constructor; [|constructor]. apply T, I. }
    rewrite B. cbn [rbind app]. replace (existsb (str_eqb p) ps) with true; [reflexivity|]. symmetry. apply existsb_exists. exists p.
    split; [apply I|]. now apply str_eqb_eq.
  - split; [discriminate|]. split; [intros _ ps0 qs0 p H1 H2; injection H1 as <-; injection H2 as <-; apply C|]. intros ->. reflexivity.
Qed.
End Handshake.

Lemma switching_reason : Forall reason_char (s "Switching Protocols").
Proof.
  cbn [s]. apply Forall_forall. intros c H. vm_compute in H. unfold reason_char. repeat (destruct H as [<-|H]; [lia|]). destruct H.
Qed.

(* A client and a server of this library, with any configuration that satisfies the hypotheses
   below: the client's request, in any number of chunks, opens the server; the server's
   response, in any number of chunks, opens the client; they agree.
   - both may use permessage-deflate, with window sizes that zlib supports, or no extension;
   - the client's lists of extensions and subprotocols aren't empty, if there are any, and
     its subprotocols are tokens;
   - extra headers don't include those of the handshake, and those which have a default value
     appear at most once;
   - the server accepts the client's origin;
   - the request and the response can be written (see C24 and C25).
   Missing: empty lists, see C41_agreement_refuted; window sizes of 8 bits, see
   C46_eight_bits_refuted. *)
Theorem C41_agreement_partial : forall (zl : zlib) (sizes : Z -> Prop) (X : ext_ops (pmd zl)) senv cenv (scfg : server_config (pmd zl)) (ccfg : client_config (pmd zl)) token smax cmax skeys ckeys req,
  sizes 15 -> can_decompress zl ->
  all_opt (client_deflate sizes) (cc_extensions ccfg) -> all_opt (server_deflate sizes) (sc_extensions scfg) ->
  some_or_none (cc_extensions ccfg) -> some_or_none (cc_subprotocols ccfg) -> all_opt Rfc7230.token (cc_subprotocols ccfg) ->
  let cextra := match cc_extra_headers ccfg with Some l => l | None => [] end in
  no_handshake cextra -> at_most_once cextra (s "User-Agent") ->
  no_handshake (extra_for scfg req) -> sane_extra scfg req ->
  any_order senv -> allowed (sc_origins scfg) (cc_origin ccfg) ->
  length token = 16%nat -> connect cenv ccfg (generate_key token) = Ok req ->
  ascii (req_path req) -> ~ In 32%N (req_path req) -> ~ In 10%N (req_path req) -> (length (req_path req) + 15 <= 4110)%nat ->
  sendable (req_headers req) ->
  (forall resp, snd (accept senv scfg req (new_conn SERVER CONNECTING smax skeys)) = Ok resp -> sendable (resp_headers resp)) ->
  exists resp w w',
    serialize_request req = Ok w /\ serialize_response resp = Ok w' /\
    forall datas datas', concat datas = w -> concat datas' = w' ->
    exists ms rs mc rs' cs cc,
      server_history X senv scfg smax skeys
        (map SCall (map CReceiveData datas) ++ [SCall CEventsReceived; SAccept req; SSendResponse resp; SCall CDataToSend]) ms
        (rs ++ [SRet (REvents [EvRequest req]); SResponse (Ok resp); SRet RNone; SRet (RWrites [w'])]) /\
      client_history X cenv ccfg (generate_key token) cmax ckeys
        ([KConnect; KSendRequest req; KCall CDataToSend] ++ map KCall (map CReceiveData datas') ++ [KCall CEventsReceived]) mc
        ([KRequest (Ok req); KRet RNone; KRet (RWrites [w])] ++ rs' ++ [KRet (REvents [EvResponse resp])]) /\
      ms = start X (parse_body X) cs /\ mc = start X (parse_body X) cc /\ fresh OPEN cs /\ fresh OPEN cc /\
      c_side cs = SERVER /\ c_side cc = CLIENT /\
      c_subprotocol cs = c_subprotocol cc /\
      (forall p, c_subprotocol cs = Some p -> exists ps qs, cc_subprotocols ccfg = Some ps /\ sc_subprotocols scfg = Some qs /\ In p ps /\ In p qs) /\
      (c_subprotocol cs = None -> forall ps qs p, cc_subprotocols ccfg = Some ps -> sc_subprotocols scfg = Some qs -> In p ps -> ~ In p qs) /\
      compress_alike (c_exts cs) (c_exts cc) /\
      (c_exts cs = [] -> forall fs gs f g, cc_extensions ccfg = Some fs -> sc_extensions scfg = Some gs -> In f fs -> In g gs -> unlimited f /\ limits g) /\
      c_origin cs = cc_origin ccfg /\ c_max_size cs = smax /\ c_max_size cc = cmax.
Proof.
  intros zl sizes X senv cenv scfg ccfg token smax cmax skeys ckeys req S15 Cd Pc Ps Nc Np Tp cextra Xc Ua Xs Sx O Al Lt Hc Pa P32 P10 Pl Sq Sr.
  destruct (connect_of cenv ccfg (generate_key token) req Ua Hc) as [auth Er].
  set (l := request_pairs cenv ccfg (generate_key token) auth) in *.
  destruct (request_values cenv ccfg (generate_key token) auth Xc) as (V1 & V2 & V3 & V4 & V5 & V6 & V7). fold l in V1, V2, V3, V4, V5, V6, V7.
  assert (Rh : req_headers req = headers_of l) by now rewrite Er.
  assert (Fl : Forall valid_header l /\ (length l <= 256)%nat).
  { destruct Sq as (l' & H & F & L). rewrite Rh in H. apply headers_of_inj in H. subst l'. auto. }
  destruct Fl as [Fl Ll].
  destruct (serialized_request (req_path req) l Pa P32 P10 Pl Fl Ll) as (w & Hw & Mw).
  assert (Rq : {| req_path := req_path req; req_headers := headers_of l |} = req) by (rewrite <- Rh; now destruct req).
  rewrite Rq in Hw.
  destruct (client_extensions_agree sizes scfg ccfg S15 Cd Pc Ps Nc l [] V6) as (eh & xs & He & _).
  destruct (client_subprotocols_agree senv scfg ccfg Np Tp l [] O V7) as (sp & Hs & Sp1 & Sp2 & _).
  assert (Kv := generated_key_valid token Lt). assert (Ka := valid_key_ascii _ Kv).
  set (c0 := @new_conn (pmd zl) SERVER CONNECTING smax skeys) in *.
  set (lr := with_defaults
      ([(s "Upgrade", s "websocket"); (s "Connection", s "Upgrade"); (s "Sec-WebSocket-Accept", accept_for (generate_key token))]
       ++ optional (s "Sec-WebSocket-Extensions") eh ++ optional (s "Sec-WebSocket-Protocol") sp ++ extra_for scfg req) (standard senv)).
  set (resp := {| resp_status := 101; resp_reason := s "Switching Protocols"; resp_headers := headers_of lr; resp_body := None; resp_exception := None |}).
  assert (Ha : accept senv scfg req c0 = (set_subprotocol (set_exts (set_origin c0 (cc_origin ccfg)) xs) sp, Ok resp)).
  { unfold accept, process_request. rewrite Rh, (upgrade_ok l V1 V2), (key_ok l token Lt V3), (version_ok l V4), (origin_ok scfg l _ V5 Al). cbn [rbind].
    rewrite He. rewrite Hs. unfold lr. f_equal. apply (accept_response_of senv scfg req (generate_key token) eh sp (extra_for scfg req)); [exact Ka|reflexivity|apply Sx|apply Sx]. }
  destruct (response_values senv (generate_key token) eh sp (extra_for scfg req) Xs) as (W1 & W2 & W3 & W4 & W5 & W6). fold lr in W1, W2, W3, W4, W5, W6.
  clearbody lr.
  destruct (client_extensions_agree sizes scfg ccfg S15 Cd Pc Ps Nc l lr V6) as (eh' & xs' & He' & Un & Ag).
  rewrite He in He'. apply ok_inj, pair_equal_spec in He' as [<- <-]. destruct (Ag W4) as (ys & Hy & Mi). clear Ag.
  destruct (client_subprotocols_agree senv scfg ccfg Np Tp l lr O V7) as (sp' & Hs' & _ & _ & Ag).
  rewrite Hs in Hs'. apply ok_inj in Hs'. subst sp'. specialize (Ag W5).
  assert (Sr' := Sr resp (f_equal snd Ha)). destruct Sr' as (lr' & H & Fr & Lr). apply headers_of_inj in H. subst lr'.
  assert (Rc : Forall reason_char (s "Switching Protocols")) by exact switching_reason.
  destruct (C25_response_round_trip 101 (s "Switching Protocols") lr None ltac:(lia) Rc) with (4 := W6) as (w' & Hw' & Rt); [|exact Fr|exact Lr|reflexivity|].
  { intros e H. vm_compute in H. apply ok_inj in H. subst e. vm_compute. lia. }
  fold resp in Hw', Rt. exists resp, w, w'. split; [exact Hw|]. split; [exact Hw'|]. intros datas datas' Ed Ed'.
  destruct (C38_open_after_handshake (pmd zl) X senv scfg smax skeys w (req_path req) l datas resp Mw Ed) as (ms & rs & cs & data & Hms & Hd & Ems & Fs & Sd & Ecs).
  - rewrite Rq. fold c0. now rewrite Ha.
  - reflexivity.
  - eauto.
  - rewrite Hd in Hw'. apply ok_inj in Hw'. subst data. rewrite Rq in Hms, Ecs. fold c0 in Ecs. rewrite Ha in Ecs. cbn [fst] in Ecs.
    set (cc0 := set_origin (@new_conn (pmd zl) CLIENT CONNECTING cmax ckeys) (cc_origin ccfg)).
    assert (Hr : handle_response ccfg (generate_key token) resp cc0 =
      (append_response (set_state (set_subprotocol (set_exts cc0 ys) sp) OPEN) resp, Ok tt)).
    { unfold handle_response, process_response. cbn [resp_status resp resp_headers Z.eqb Pos.eqb negb]. rewrite (upgrade_ok lr W1 W2). cbn [rbind].
      assert (Ck : check_accept (generate_key token) (headers_of lr) = Ok tt).
      { unfold check_accept, get_single. rewrite (rep_getitem _ _ _ (rep_of lr)), W3. cbn [rbind]. rewrite (C42_accept_key _ Ka). cbn [rbind].
        now rewrite (proj2 (str_eqb_eq _ _) eq_refl). }
      rewrite Ck. cbn [rbind]. rewrite Hy, Ag. reflexivity. }
    assert (Rn : fst (do_calls X (new_client X ccfg (generate_key token) cmax ckeys) (map CReceiveData datas')) =
      Machine (append_response (set_state (set_subprotocol (set_exts cc0 ys) sp) OPEN) resp) reader_init (PRun (parse_body X)) None).
    { unfold new_client. rewrite start_chunks; [|apply live_client_parse|apply client_starts].
      assert (R0 := Rt datas' [] (eq_trans Ed' (eq_sym (app_nil_r w')))).
      pose proof (client_response ccfg (generate_key token) datas' resp [] cc0 R0 eq_refl) as Rn. rewrite Hr in Rn.
      now rewrite (step_done X _ _ _ _ Rn). }
    set (cc := set_state (set_subprotocol (set_exts cc0 ys) sp) OPEN) in *.
    exists ms, rs, (start X (parse_body X) cc), (map KRet (snd (do_calls X (new_client X ccfg (generate_key token) cmax ckeys) (map CReceiveData datas')))), cs, cc.
    split; [exact Hms|]. split.
    { unfold client_history. rewrite client_run_app. cbn [client_run]. cbn [client_do]. rewrite Hc.
      assert (Sn : on_conn (new_client X ccfg (generate_key token) cmax ckeys) (send_request req) =
         (Machine (set_writes cc0 [w]) reader_init (PRun (client_parse ccfg (generate_key token))) None, RNone)).
      { unfold on_conn, send_request. rewrite Hw. reflexivity. }
      rewrite Sn. cbn [do_call data_to_send m_conn m_reader m_parser m_exc c_writes set_writes].
      change (Machine (set_writes (set_writes cc0 [w]) []) _ _ _) with (new_client X ccfg (generate_key token) cmax ckeys).
      cbn [fst snd]. rewrite client_run_app, client_run_calls. cbn [fst snd]. rewrite Rn. cbn [fst snd client_run client_do do_call events_received m_conn].
      cbn [append_response c_events set_events cc set_state set_subprotocol set_exts cc0 set_origin new_conn app]. reflexivity. }
    split; [exact Ems|]. split; [reflexivity|]. split; [exact Fs|]. split; [now repeat split|]. split; [exact Sd|]. split; [reflexivity|].
    rewrite Ecs. cbn [c_subprotocol set_state set_subprotocol c_exts set_exts c_origin set_origin cc cc0].
    split; [reflexivity|]. split; [exact Sp1|]. split; [exact Sp2|]. split; [exact Mi|]. split; [exact Un|]. split; [reflexivity|]. split; reflexivity.
Qed.

From Verif Require Import Proofs.StoredZlib.

(* A client that makes three offers, the first of which the server refuses. *)
Definition ex_sizes (n : Z) : Prop := 9 <= n <= 15.
Definition client_conf a b c d : pmd_config stored_zlib := match client_pmd_config a b c d None with Ok x => x | Raise _ => {| g_snct := a; g_cnct := b; g_smwb := c; g_cmwb := d; g_settings := None |} end.
Definition server_conf a b c d : pmd_config stored_zlib := match server_pmd_config a b c d None with Ok x => x | Raise _ => {| g_snct := a; g_cnct := b; g_smwb := c; g_cmwb := d; g_settings := None |} end.
Definition agreeing_client (extensions : option (list (client_factory (pmd stored_zlib)))) (subprotocols : option (list str)) : client_config (pmd stored_zlib) := {|
  cc_wsuri := {| uri_secure := true; uri_host := s "example.com"; uri_port := 8443; uri_resource_name := s "/chat?room=1"; uri_user_info := Some (s "hello", s "iloveyou") |};
  cc_origin := Some (s "https://example.com");
  cc_extensions := extensions; cc_subprotocols := subprotocols; cc_extra_headers := Some [(s "X-Test", s "1")] |}.
Definition ex_offers : list (client_factory (pmd stored_zlib)) := [
  client_pmd (fun _ => pmd_name) id (client_conf true true None None);
  client_pmd (fun _ => pmd_name) id (client_conf false true (Some 12) (Some BTrue));
  client_pmd (fun _ => pmd_name) id (client_conf false false None None)].
Definition agreeing_server : server_config (pmd stored_zlib) := {|
  sc_origins := Some [None; Some (s "https://example.com")];
  sc_extensions := Some [server_pmd (fun _ => pmd_name) id (server_conf true false None (Some (Bits 10)))];
  sc_subprotocols := Some [s "superchat"; s "chat"];
  sc_extra_headers := fun _ _ => Some [(s "Server", s "test")] |}.

Definition header_ok (kv : str * str) : bool :=
  negb (length (fst kv) =? 0)%nat && forallb is_tchar (fst kv) && forallb (fun c => (c =? 9) || ((32 <=? c) && (c <=? 126)))%N (snd kv) &&
  negb (hd 65 (snd kv) =? 32)%N && negb (hd 65 (snd kv) =? 9)%N && negb (last (snd kv) 65 =? 32)%N && negb (last (snd kv) 65 =? 9)%N &&
  (length (fst kv) + length (snd kv) + 4 <=? 4110)%nat.
Lemma header_ok_valid l : forallb header_ok l = true -> Forall valid_header l.
Proof.
  intros H. apply Forall_forall. intros [k v] I. rewrite forallb_forall in H. specialize (H _ I). unfold header_ok in H. cbn [fst snd] in H.
  rewrite !andb_true_iff, !negb_true_iff in H. destruct H as [[[[[[[H1 H2] H3] H4] H5] H6] H7] H8].
  apply N.eqb_neq in H4, H5, H6, H7. apply Nat.eqb_neq in H1. apply Nat.leb_le in H8. rewrite forallb_forall in H2, H3.
  split; [|split; [|split; [|split]]]; cbn [fst snd].
  - apply token_class. split; [intros ->; now apply H1|]. now apply Forall_forall.
  - apply Forall_forall. intros c Ic. specialize (H3 c Ic). rewrite orb_true_iff, andb_true_iff, N.eqb_eq, !N.leb_le in H3. exact H3.
  - intros c r ->. cbn [hd] in *. auto.
  - intros c r ->. rewrite last_last in *. auto.
  - exact H8.
Qed.
Lemma no_handshake_check extra : forallb (fun kv => negb (existsb (same_name (fst kv))
    [s "Origin"; s "Upgrade"; s "Connection"; s "Sec-WebSocket-Key"; s "Sec-WebSocket-Version";
    s "Sec-WebSocket-Accept"; s "Sec-WebSocket-Extensions"; s "Sec-WebSocket-Protocol"; s "Transfer-Encoding"])) extra = true -> no_handshake extra.
Proof.
  intros H name I. unfold values. replace (filter (fun kv => same_name (fst kv) name) extra) with (@nil (str * str)); [reflexivity|].
  symmetry. induction extra as [|kv extra IH]; [reflexivity|]. cbn [forallb] in H. apply andb_true_iff in H as [H1 H2]. cbn [filter].
  destruct (same_name (fst kv) name) eqn:Sn; [|now apply IH]. exfalso. apply negb_true_iff in H1.
  assert (Ex : existsb (same_name (fst kv)) [s "Origin"; s "Upgrade"; s "Connection"; s "Sec-WebSocket-Key"; s "Sec-WebSocket-Version";
    s "Sec-WebSocket-Accept"; s "Sec-WebSocket-Extensions"; s "Sec-WebSocket-Protocol"; s "Transfer-Encoding"] = true) by (apply existsb_exists; eauto).
  congruence.
Qed.

Example C41_applies :
  let cfg := agreeing_client (Some ex_offers) (Some [s "chat"; s "v2.chat"]) in
  ex_sizes 15 /\ can_decompress stored_zlib /\
  all_opt (client_deflate ex_sizes) (cc_extensions cfg) /\ all_opt (server_deflate ex_sizes) (sc_extensions agreeing_server) /\
  some_or_none (cc_extensions cfg) /\ some_or_none (cc_subprotocols cfg) /\ all_opt Rfc7230.token (cc_subprotocols cfg) /\
  no_handshake [(s "X-Test", s "1")] /\ at_most_once [(s "X-Test", s "1")] (s "User-Agent") /\
  allowed (sc_origins agreeing_server) (cc_origin cfg) /\
  exists req resp, connect ex_env cfg (generate_key (b "the sample nonce")) = Ok req /\ sendable (req_headers req) /\
    ascii (req_path req) /\ no_handshake (extra_for agreeing_server req) /\ sane_extra agreeing_server req /\
    snd (accept ex_env agreeing_server req (new_conn SERVER CONNECTING None ex_keys)) = Ok resp /\ sendable (resp_headers resp) /\
    headers_get_all (resp_headers resp) (s "Sec-WebSocket-Extensions") =
      [s "permessage-deflate; server_no_context_takeover; client_no_context_takeover; server_max_window_bits=12; client_max_window_bits=10"] /\
    headers_get_all (resp_headers resp) (s "Sec-WebSocket-Protocol") = [s "chat"].
Proof.
  intros cfg. unfold ex_sizes. split; [lia|]. split; [exact stored_can_decompress|].
  assert (Cc : forall n, 9 <= n <= 15 -> can_compress stored_zlib n None) by (intros; now apply stored_can_compress).
  assert (Kc : forall a b c d, client_pmd_config a b c d None = Ok (client_conf a b c d) ->
    (forall n, c = Some n \/ d = Some (Bits n) -> 9 <= n <= 15) -> client_deflate (fun n => 9 <= n <= 15) (client_pmd (fun _ => pmd_name) id (client_conf a b c d))).
  { intros a b c d H1 H2. exists a, b, c, d, None, (client_conf a b c d). auto. }
  split.
  { repeat apply Forall_cons; [| | |apply Forall_nil]; (apply Kc; [reflexivity|]); intros n [H|H]; try discriminate H; injection H as <-; lia. }
  split.
  { apply Forall_cons; [|apply Forall_nil]. exists true, false, None, (Some (Bits 10)), None, (server_conf true false None (Some (Bits 10))).
    split; [reflexivity|]. split; [reflexivity|]. split; [|exact Cc].
    intros n [H|H]; try discriminate H; injection H as <-; lia. }
  split; [discriminate|]. split; [discriminate|].
  split; [repeat apply Forall_cons; [| |apply Forall_nil]; (apply token_class; split; [discriminate|]; apply Forall_forall, forallb_forall; reflexivity)|].
  split; [apply no_handshake_check; reflexivity|]. split; [vm_compute; lia|]. split; [right; now left|].
  assert (Sd : forall h, h = headers_of (h_list h) -> forallb header_ok (h_list h) = true -> (length (h_list h) <= 256)%nat -> sendable h).
  { intros h H1 H2 H3. exists (h_list h). split; [exact H1|]. split; [now apply header_ok_valid|exact H3]. }
  eexists _, _. split; [vm_compute; reflexivity|].
  split; [apply Sd; vm_compute; [reflexivity|reflexivity|lia]|].
  split; [apply Forall_forall; intros c H; vm_compute in H; repeat (destruct H as [<-|H]; [lia|]); destruct H|].
  split; [apply no_handshake_check; reflexivity|]. split; [split; vm_compute; lia|].
  split; [vm_compute; reflexivity|].
  split; [apply Sd; vm_compute; [reflexivity|reflexivity|lia]|].
  split; vm_compute; reflexivity.
Qed.

(* With an empty list of extensions (or subprotocols), the client sends an empty header, which
   the server refuses, when it supports extensions (or subprotocols). *)
Definition status_of (extensions : option (list (client_factory (pmd stored_zlib)))) (subprotocols : option (list str)) : result Z :=
  let! req := connect ex_env (agreeing_client extensions subprotocols) (generate_key (b "the sample nonce")) in
  let! resp := snd (accept ex_env agreeing_server req (new_conn SERVER CONNECTING None ex_keys)) in Ok (resp_status resp).
Theorem C41_agreement_refuted : status_of (Some []) None = Ok 400 /\ status_of None (Some []) = Ok 400 /\ status_of None None = Ok 101.
Proof. split; [|split]; vm_compute; reflexivity. Qed.

Print Assumptions C41_agreement_partial.
Print Assumptions C41_agreement_refuted.
