(* C94: the argument compression of connect() and serve(); by default, messages are compressed. *)
From Verif Require Import Base.Prelude Base.PreludeFacts Model.Utils Model.Datastructures Model.Headers Model.Streams Model.Http11 Model.Frames
  Model.Connection Model.Handshake Model.Server Model.Client Model.PermessageDeflate Model.Compression Model.LegacyHandshake
  Spec.Rfc7230 Spec.Multimap Spec.Http1 Spec.Handshake Spec.Deflate Spec.Negotiated
  Proofs.AcceptFacts Proofs.AgreementFacts Proofs.HandshakeFacts Proofs.DeflateFacts Proofs.StoredZlib Properties.Handshake Properties.Deflate Properties.Agreement Properties.LegacyAgreement.
Local Open Scope Z_scope.

(* the extensions which are given, if any *)
Definition given {A} (extensions : option (list A)) : list A := match extensions with Some l => l | None => [] end.

(* What the client offers.  With compression="deflate", the list which is given stays first, in the same order; permessage-deflate
   is added, letting the server limit the client's window, unless it was there already, whatever its configuration. *)
Theorem C94_client_argument : forall zl E (name_of : E -> str) (mk : pmd zl -> E) compression extensions,
  (compression = None -> connect_extensions name_of mk compression extensions = Ok extensions) /\
  (forall c, compression = Some c -> c <> s "deflate" -> connect_extensions name_of mk compression extensions = Raise ValueError) /\
  (compression = Some (s "deflate") -> exists fs, connect_extensions name_of mk compression extensions = Ok (Some fs) /\
    ((exists f, In f (given extensions) /\ cf_name f = s "permessage-deflate") -> fs = given extensions) /\
    ((forall f, In f (given extensions) -> cf_name f <> s "permessage-deflate") -> exists f, fs = given extensions ++ [f] /\
      cf_name f = s "permessage-deflate" /\ cf_request_params f = [(s "client_max_window_bits", None)] /\
      exists cfg, client_pmd_config false false None (Some BTrue) None = Ok cfg /\ f = client_pmd name_of mk cfg)).
Proof.
  intros zl E name_of mk compression extensions. split; [intros ->; reflexivity|]. split.
  - intros c -> N. unfold connect_extensions. destruct (str_eqb c (s "deflate")) eqn:H; [|reflexivity]. apply str_eqb_eq in H. contradiction.
  - intros ->. unfold connect_extensions. rewrite (proj2 (str_eqb_eq _ _) eq_refl). eexists. split; [reflexivity|].
    unfold enable_client_permessage_deflate. fold (given extensions).
    destruct (existsb (fun f => str_eqb (cf_name f) pmd_name) (given extensions)) eqn:Ex.
    + split; [reflexivity|]. intros N. apply existsb_exists in Ex as (f & I & H). apply str_eqb_eq in H. now elim (N f I).
    + split.
      * intros (f & I & H). assert (T : existsb (fun f => str_eqb (cf_name f) pmd_name) (given extensions) = true); [|congruence].
        apply existsb_exists. exists f. split; [exact I|]. now apply str_eqb_eq.
      * intros _. eexists. split; [reflexivity|]. split; [reflexivity|]. split; [reflexivity|]. eexists. split; reflexivity.
Qed.

(* The same for the server, which has no requirements. *)
Theorem C94_server_argument : forall zl E (name_of : E -> str) (mk : pmd zl -> E) compression extensions,
  (compression = None -> serve_extensions name_of mk compression extensions = Ok extensions) /\
  (forall c, compression = Some c -> c <> s "deflate" -> serve_extensions name_of mk compression extensions = Raise ValueError) /\
  (compression = Some (s "deflate") -> exists gs, serve_extensions name_of mk compression extensions = Ok (Some gs) /\
    ((exists g, In g (given extensions) /\ sf_name g = s "permessage-deflate") -> gs = given extensions) /\
    ((forall g, In g (given extensions) -> sf_name g <> s "permessage-deflate") -> exists g, gs = given extensions ++ [g] /\
      sf_name g = s "permessage-deflate" /\
      exists cfg, server_pmd_config false false None None None = Ok cfg /\ g = server_pmd name_of mk cfg)).
Proof.
  intros zl E name_of mk compression extensions. split; [intros ->; reflexivity|]. split.
  - intros c -> N. unfold serve_extensions. destruct (str_eqb c (s "deflate")) eqn:H; [|reflexivity]. apply str_eqb_eq in H. contradiction.
  - intros ->. unfold serve_extensions. rewrite (proj2 (str_eqb_eq _ _) eq_refl). eexists. split; [reflexivity|].
    unfold enable_server_permessage_deflate. fold (given extensions).
    destruct (existsb (fun f => str_eqb (sf_name f) pmd_name) (given extensions)) eqn:Ex.
    + split; [reflexivity|]. intros N. apply existsb_exists in Ex as (f & I & H). apply str_eqb_eq in H. now elim (N f I).
    + split.
      * intros (f & I & H). assert (T : existsb (fun f => str_eqb (sf_name f) pmd_name) (given extensions) = true); [|congruence].
        apply existsb_exists. exists f. split; [exact I|]. now apply str_eqb_eq.
      * intros _. eexists. split; [reflexivity|]. split; [reflexivity|]. eexists. split; reflexivity.
Qed.

(* An application that gives no extension. *)
Lemma client_list {zl} (sizes : Z -> Prop) exts (o : option (list (client_factory (pmd zl)))) :
  connect_extensions (fun _ => pmd_name) id (Some (s "deflate")) exts = Ok o -> all_opt (client_deflate sizes) exts ->
  (forall n, sizes n -> can_compress zl n None) ->
  exists fs, o = Some fs /\ Forall (client_deflate sizes) fs /\ fs <> [] /\ (exts = None -> forall f, In f fs -> ~ unlimited f).
Proof.
  intros H A Cc. assert (A' : Forall (client_deflate sizes) (given exts)) by (destruct exts; [exact A|constructor]). clear A.
  destruct (C94_client_argument zl (pmd zl) (fun _ => pmd_name) id (Some (s "deflate")) exts) as (_ & _ & Dc).
  destruct (Dc eq_refl) as (fs & Hf & D1 & D2). rewrite Hf in H. apply ok_inj in H. subst o. exists fs. split; [reflexivity|].
  destruct (given exts) as [|g gs] eqn:Eg.
  - destruct D2 as (f & -> & _ & Rp & cfg & Hc & ->); [intros f []|]. split.
    { constructor; [|constructor]. exists false, false, None, (Some BTrue), None, cfg. split; [exact Hc|]. split; [reflexivity|].
      split; [intros n [H|H]; discriminate H|exact Cc]. }
    split; [discriminate|]. intros _ f [<-|[]] (a & b & c & st & cfg' & Hc' & Ef). apply (f_equal (@cf_request_params _)) in Ef. rewrite Rp in Ef.
    apply client_config_ok in Hc' as (_ & _ & _ & _ & Gd & _). cbn [cf_request_params client_pmd] in Ef. unfold build_parameters in Ef. rewrite Gd in Ef.
    destruct (g_snct cfg'), (g_cnct cfg'), (g_smwb cfg') as [n|]; try destruct (n =? 0); discriminate Ef.
  - assert (Ef : fs = g :: gs); [apply D1|subst fs].
    { exists g. split; [now left|]. inversion A' as [|? ? G _]; subst. destruct G as (a & b & c & d & st & cfg & _ & -> & _). reflexivity. }
    split; [exact A'|]. split; [discriminate|]. intros ->. discriminate Eg.
Qed.
Lemma limits_refuses {zl} (g : server_factory (pmd zl)) : limits g -> exists e, sf_process_request_params g [] [] = Raise e.
Proof.
  intros (a & b & c & d & st & cfg & Hc & ->). apply server_config_ok in Hc as (Kc & _ & _ & _ & Gd & _).
  cbn [sf_process_request_params server_pmd]. rewrite process_request_params_eq. cbn [is_duplicate existsb].
  change (@nil (str * option str)) with (build_parameters (false, false, None, None)) at 1.
  rewrite extract_build; [|split; intros; discriminate|reflexivity]. cbn [rbind].
  pose proof (server_answer_view cfg false false None None) as V. destruct (server_answer cfg _) as [[[[a1 b1] c1] d1]|e]; [|eexists; reflexivity].
  exfalso. destruct V as (_ & _ & _ & V). unfold server_cmwb in V. now rewrite Gd in V.
Qed.
Lemma server_list {zl} (sizes : Z -> Prop) exts (o : option (list (server_factory (pmd zl)))) :
  serve_extensions (fun _ => pmd_name) id (Some (s "deflate")) exts = Ok o -> all_opt (server_deflate sizes) exts ->
  (forall n, sizes n -> can_compress zl n None) ->
  sizes 15 -> can_decompress zl ->
  exists gs, o = Some gs /\ Forall (server_deflate sizes) gs /\ gs <> [] /\ (exts = None -> forall g, In g gs -> ~ limits g).
Proof.
  intros H A Cc S15 Cd. assert (A' : Forall (server_deflate sizes) (given exts)) by (destruct exts; [exact A|constructor]). clear A.
  destruct (C94_server_argument zl (pmd zl) (fun _ => pmd_name) id (Some (s "deflate")) exts) as (_ & _ & Dc).
  destruct (Dc eq_refl) as (fs & Hf & D1 & D2). rewrite Hf in H. apply ok_inj in H. subst o. exists fs. split; [reflexivity|].
  destruct (given exts) as [|g gs] eqn:Eg.
  - destruct D2 as (f & -> & _ & cfg & Hc & ->); [intros f []|]. split.
    { constructor; [|constructor]. exists false, false, None, None, None, cfg. split; [exact Hc|]. split; [reflexivity|].
      split; [intros n [H|H]; discriminate H|exact Cc]. }
    split; [discriminate|]. intros _ g [<-|[]] L. apply limits_refuses in L as [e L].
    destruct (C46_offer_accepted_partial zl _ _ (fun _ : pmd zl => pmd_name) id (fun _ : pmd zl => pmd_name) id false false None None None false false None None None
      {| g_snct := false; g_cnct := false; g_smwb := None; g_cmwb := None; g_settings := None |} cfg [] eq_refl Hc) as (an & x & A);
      [intros ? []|exact Cd|intros n [->|[H|H]]; [now apply Cc|discriminate H|discriminate H]|].
    cbn [cf_request_params client_pmd] in A. change (build_parameters _) with (@nil (str * option str)) in A. congruence.
  - assert (Ef : fs = g :: gs); [apply D1|subst fs].
    { exists g. split; [now left|]. inversion A' as [|? ? G _]; subst. destruct G as (a & b & c & d & st & cfg & _ & -> & _). reflexivity. }
    split; [exact A'|]. split; [discriminate|]. intros ->. discriminate Eg.
Qed.

(* A client and a server which both have compression="deflate", the default, and one of which leaves the configuration of the extension to
   the library.  Once the handshake succeeds, both compress, with the same settings.  The hypotheses are those of C85_agreement_partial. *)
Theorem C94_default_compresses : forall (zl : zlib) (sizes : Z -> Prop) senv cenv (scfg : server_config (pmd zl)) (ccfg : client_config (pmd zl)) hook token req cexts sexts,
  sizes 15 -> can_decompress zl -> (forall n, sizes n -> can_compress zl n None) ->
  connect_extensions (fun _ => pmd_name) id (Some (s "deflate")) cexts = Ok (cc_extensions ccfg) ->
  serve_extensions (fun _ => pmd_name) id (Some (s "deflate")) sexts = Ok (sc_extensions scfg) ->
  all_opt (client_deflate sizes) cexts -> all_opt (server_deflate sizes) sexts ->
  cexts = None \/ sexts = None ->
  some_or_none (cc_subprotocols ccfg) -> all_opt Rfc7230.token (cc_subprotocols ccfg) ->
  let cextra := match cc_extra_headers ccfg with Some l => l | None => [] end in
  no_handshake cextra -> at_most_once cextra (s "User-Agent") ->
  no_handshake (extra_for scfg req) -> sane_extra scfg req ->
  any_order senv -> allowed (sc_origins scfg) (cc_origin ccfg) ->
  length token = 16%nat -> connect cenv ccfg (generate_key token) = Ok req ->
  ascii (req_path req) -> ~ In 32%N (req_path req) -> ~ In 10%N (req_path req) -> (length (req_path req) + 15 <= 4110)%nat ->
  sendable (req_headers req) ->
  (forall h p, legacy_accept senv scfg req = Ok (h, p) -> sendable h) ->
  hook (req_path req) (req_headers req) = Ok None ->
  exists w h w' origin subprotocol x y,
    serialize_request req = Ok w /\ (forall rest, read_http_request (w ++ rest) = Ok req) /\
    legacy_accept senv scfg req = Ok (h, (origin, [x], subprotocol)) /\
    legacy_response senv scfg hook true (Ok req) = Ok (101, h, None) /\
    serialize_response {| resp_status := 101; resp_reason := s "Switching Protocols"; resp_headers := h; resp_body := None; resp_exception := None |} = Ok w' /\
    (forall rest, read_http_response (w' ++ rest) = Ok (101, h)) /\
    legacy_client_handshake ccfg (generate_key token) 101 h = CeOpen [y] subprotocol /\
    ready x /\ ready y /\ mirrored x y.
Proof.
  intros zl sizes senv cenv scfg ccfg hook token req cexts sexts S15 Cd Cn Hf Hg Ac As D Np Tp cextra Xc Ua Xs Sx O Al Lt Hc Pa P32 P10 Pl Sq Sr Hk.
  destruct (client_list sizes cexts _ Hf Ac Cn) as (fs & Ef & Ff & Nf & Df). destruct (server_list sizes sexts _ Hg As Cn S15 Cd) as (gs & Eg & Fg & Ng & Dg).
  destruct (C85_agreement_partial zl sizes senv cenv scfg ccfg hook token req S15 Cd) as (w & h & w' & origin & xs & ys & sp & H1 & H2 & H3 & H4 & H5 & H6 & H7 & _ & _ & Al' & Un & _);
    try assumption; [rewrite Ef; exact Ff|rewrite Eg; exact Fg|rewrite Ef; unfold some_or_none; congruence|].
  destruct Al' as [[-> ->]|(x & y & -> & -> & Rx & Ry & M)].
  - exfalso. destruct fs as [|f fs]; [now apply Nf|]. destruct gs as [|g gs]; [now apply Ng|].
    destruct (Un eq_refl _ _ f g Ef Eg (or_introl eq_refl) (or_introl eq_refl)) as [U L].
    destruct D as [D|D]; [exact (Df D f (or_introl eq_refl) U)|exact (Dg D g (or_introl eq_refl) L)].
  - exists w, h, w', origin, sp, x, y. auto 12.
Qed.

(* Nothing about compression is given on either side. *)
Definition default_client : client_config (pmd stored_zlib) :=
  agreeing_client (Some (enable_client_permessage_deflate (fun _ => pmd_name) id None)) None.
Definition default_server : server_config (pmd stored_zlib) := {|
  sc_origins := None; sc_extensions := Some (enable_server_permessage_deflate (fun _ => pmd_name) id None);
  sc_subprotocols := None; sc_extra_headers := fun _ _ => None |}.
Example C94_applies :
  ex_sizes 15 /\ can_decompress stored_zlib /\ (forall n, ex_sizes n -> can_compress stored_zlib n None) /\
  connect_extensions (fun _ => pmd_name) id (Some (s "deflate")) None = Ok (cc_extensions default_client) /\
  serve_extensions (fun _ => pmd_name) id (Some (s "deflate")) None = Ok (sc_extensions default_server) /\
  exists req h p, connect ex_env default_client (generate_key (b "the sample nonce")) = Ok req /\
    headers_get_all (req_headers req) (s "Sec-WebSocket-Extensions") = [s "permessage-deflate; client_max_window_bits"] /\
    sendable (req_headers req) /\ legacy_accept ex_env default_server req = Ok (h, p) /\ sendable h /\
    headers_get_all h (s "Sec-WebSocket-Extensions") = [s "permessage-deflate"].
Proof.
  assert (Sd : forall h, h = headers_of (h_list h) -> forallb header_ok (h_list h) = true -> (length (h_list h) <= 256)%nat -> sendable h).
  { intros h H1 H2 H3. exists (h_list h). split; [exact H1|]. split; [now apply header_ok_valid|exact H3]. }
  split; [unfold ex_sizes; lia|]. split; [exact stored_can_decompress|]. split; [intros; now apply stored_can_compress|].
  split; [reflexivity|]. split; [reflexivity|].
  eexists _, _, _. split; [vm_compute; reflexivity|]. split; [vm_compute; reflexivity|].
  split; [apply Sd; vm_compute; [reflexivity|reflexivity|lia]|].
  split; [vm_compute; reflexivity|].
  split; [apply Sd; vm_compute; [reflexivity|reflexivity|lia]|].
  vm_compute; reflexivity.
Qed.

Print Assumptions C94_client_argument.
Print Assumptions C94_server_argument.
Print Assumptions C94_default_compresses.
