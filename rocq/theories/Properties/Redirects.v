(* C52, C53 and C73: redirects. *)
From Verif Require Import Base.Prelude Base.PreludeFacts Model.Client Model.Uri Model.Connect Properties.Uri.

(* ---- every attempt ---- *)

(* from one attempt to the next *)
Definition follows (ue : uri_env) (w : world) (before : list attempt) (a a' : attempt) : Prop :=
  exists uri, w (before ++ [a]) = Redirects uri /\ parse_uri ue uri = Ok (at_uri a') /\
    (uri_secure (at_uri a) = true -> uri_secure (at_uri a') = true).

Section Loop.
Context (ue : uri_env) (w : world).

(* a property of the state and the attempts made so far, kept by the loop *)
Lemma loop_invariant (I : connect_state -> list attempt -> Prop) (P : list attempt -> Prop) :
  (forall st past, I st past -> P past) ->
  (forall st past p tls, I st past -> create_connection (cs_connector st) = Ok (p, tls) ->
     let past' := past ++ [{| at_uri := cs_wsuri st; at_peer := p; at_tls := tls |}] in
     P past' /\ forall uri st', w past' = Redirects uri -> handle_redirect ue st uri = Ok st' -> I st' past') ->
  forall n st past, I st past -> P (fst (connect_loop ue w n st past)).
Proof.
  intros H0 H1. induction n as [|n IH]; intros st past H; cbn [connect_loop]; [now apply (H0 st)|].
  destruct (create_connection (cs_connector st)) as [[p tls]|e] eqn:C; [|now apply (H0 st)].
  destruct (H1 st past p tls H C) as [HP HI]. cbv zeta in *. set (past' := past ++ _) in *.
  destruct (w past') as [|uri|e] eqn:W; [exact HP| |exact HP].
  destruct (handle_redirect ue st uri) as [st'|e] eqn:R; [|exact HP]. apply IH. now apply (HI uri).
Qed.

Lemma redirect_view st uri st' : handle_redirect ue st uri = Ok st' ->
  parse_uri ue uri = Ok (cs_wsuri st') /\ (uri_secure (cs_wsuri st) = true -> uri_secure (cs_wsuri st') = true) /\
  cn_ssl (cs_connector st') = cn_ssl (cs_connector st) /\ cn_sock (cs_connector st') = cn_sock (cs_connector st) /\ cn_unix (cs_connector st') = cn_unix (cs_connector st) /\
  ((uri_host (cs_wsuri st') = uri_host (cs_wsuri st) /\ uri_port (cs_wsuri st') = uri_port (cs_wsuri st) /\ cs_connector st' = cs_connector st) \/
   (~ (uri_host (cs_wsuri st') = uri_host (cs_wsuri st) /\ uri_port (cs_wsuri st') = uri_port (cs_wsuri st)) /\
    cn_args (cs_connector st') = [PHost (Some (uri_host (cs_wsuri st'))); PPort (Some (uri_port (cs_wsuri st')))])).
Proof.
  unfold handle_redirect. destruct (parse_uri ue uri) as [new|]; cbn [rbind]; [|discriminate].
  destruct (uri_secure (cs_wsuri st) && negb (uri_secure new)) eqn:Sec; [discriminate|]. intros H. apply ok_inj in H. subst st'. cbn [cs_wsuri cs_connector].
  split; [reflexivity|]. split; [intros E; rewrite E in Sec; now destruct (uri_secure new)|].
  destruct (str_eqb (uri_host (cs_wsuri st)) (uri_host new) && (uri_port (cs_wsuri st) =? uri_port new)%Z) eqn:So.
  - do 3 (split; [reflexivity|]). left. apply andb_prop in So as [S1 S2]. apply str_eqb_eq in S1. apply Z.eqb_eq in S2. auto.
  - do 3 (split; [reflexivity|]). right. split; [|reflexivity]. intros [E1 E2]. rewrite <- E1, <- E2, (proj2 (str_eqb_eq _ _) eq_refl), Z.eqb_refl in So. discriminate.
Qed.

Lemma loop_length n : forall st past, (length (fst (connect_loop ue w n st past)) <= length past + n)%nat.
Proof.
  induction n as [|n IH]; intros st past; cbn [connect_loop]; [cbn; lia|].
  destruct (create_connection (cs_connector st)) as [[p tls]|e]; [|cbn [fst]; lia]. cbv zeta. set (past' := past ++ _).
  assert (L : length past' = (length past + 1)%nat) by (unfold past'; now rewrite app_length).
  destruct (w past') as [|uri|e]; cbn [fst]; [lia| |lia]. destruct (handle_redirect ue st uri) as [st'|e]; cbn [fst]; [|lia]. specialize (IH st' past'). lia.
Qed.
Lemma loop_extends n : forall st past, exists rest, fst (connect_loop ue w n st past) = past ++ rest.
Proof.
  induction n as [|n IH]; intros st past; cbn [connect_loop]; [exists []; now rewrite app_nil_r|].
  destruct (create_connection (cs_connector st)) as [[p tls]|e]; [|exists []; now rewrite app_nil_r]. cbv zeta. set (x := Build_attempt _ _ _).
  destruct (w (past ++ [x])) as [|uri|e]; cbn [fst]; [eauto| |eauto]. destruct (handle_redirect ue st uri) as [st'|e]; cbn [fst]; [|eauto].
  destruct (IH st' (past ++ [x])) as [rest ->]. rewrite <- app_assoc. eauto.
Qed.
End Loop.

(* ---- C52 ---- *)

(* At most ten attempts are made; each one after the first one is for the URI given by the
   server for the previous one. *)
Theorem C52_at_most_ten_handshakes : forall ue w uri args,
  (length (fst (await_connect ue w uri args)) <= 10)%nat.
Proof.
  intros ue w uri args. unfold await_connect. destruct (connect_init ue uri args) as [st|e]; [|cbn; lia].
  etransitivity; [apply loop_length|]. apply le_n.
Qed.
Theorem C52_follows_redirects : forall ue w uri args before a a' after,
  fst (await_connect ue w uri args) = before ++ [a; a'] ++ after -> follows ue w before a a'.
Proof.
  intros ue w uri args. unfold await_connect. destruct (connect_init ue uri args) as [st|e]; [|intros [|? ?] ? ? ?; discriminate].
  assert (G : (fun past => forall before a a' after, past = before ++ [a; a'] ++ after -> follows ue w before a a') (fst (connect_loop ue w max_redirects_allowed st []))).
  { apply loop_invariant with (I := fun st past =>
      (forall before a a' after, past = before ++ [a; a'] ++ after -> follows ue w before a a') /\
      (forall before a, past = before ++ [a] -> exists uri, w past = Redirects uri /\ parse_uri ue uri = Ok (cs_wsuri st) /\
         (uri_secure (at_uri a) = true -> uri_secure (cs_wsuri st) = true))).
    - intros st0 past [H _]. exact H.
    - intros st0 past p tls [H1 H2] C past'. assert (N : forall before a a' after, past' = before ++ [a; a'] ++ after -> follows ue w before a a').
      { intros before a a' after E. destruct after as [|x after] using rev_ind.
        - unfold past' in E. cbn [app] in E. change (before ++ [a; a']) with (before ++ ([a] ++ [a'])) in E. rewrite app_assoc in E. apply app_inj_tail in E as [E1 E2].
          destruct (H2 before a E1) as (u & Hw & Hp & Hs). subst a'. exists u. cbn [at_uri]. rewrite <- E1. auto.
        - clear IHafter. unfold past' in E. rewrite !app_assoc in E. apply app_inj_tail in E as [E _]. rewrite <- app_assoc in E. now apply (H1 before a a' after). }
      split; [exact N|]. intros u st' Hw R. apply redirect_view in R as (Hp & Hs & _). split; [exact N|]. intros before a E. exists u. split; [exact Hw|]. split; [exact Hp|].
      unfold past' in E. apply app_inj_tail in E as [_ <-]. exact Hs.
    - split; [intros before a a' after E; destruct before; discriminate|]. intros before a E. destruct before; discriminate. }
  exact G.
Qed.
(* After an attempt for a wss URI, all are for wss URIs. *)
Theorem C52_never_downgrades : forall ue w uri args before a between a' after,
  fst (await_connect ue w uri args) = before ++ [a] ++ between ++ [a'] ++ after ->
  uri_secure (at_uri a) = true -> uri_secure (at_uri a') = true.
Proof.
  intros ue w uri args before a between. revert before a. induction between as [|b between IH]; intros before a a' after E Sa.
  - apply (C52_follows_redirects ue w uri args before a a' after) in E as (u & _ & _ & H). now apply H.
  - apply (IH (before ++ [a]) b a' after); [rewrite <- app_assoc; exact E|].
    apply (C52_follows_redirects ue w uri args before a b (between ++ [a'] ++ after)) in E as (u & _ & _ & H). now apply H.
Qed.
(* A redirect that is refused raises SecurityError; so does the eleventh redirect. *)
Theorem C52_downgrade_refused : forall ue st uri new, parse_uri ue uri = Ok new ->
  uri_secure (cs_wsuri st) = true -> uri_secure new = false -> exists m, handle_redirect ue st uri = Raise (SecurityError m).
Proof. intros ue st uri new H Ho Hn. unfold handle_redirect. rewrite H. cbn [rbind]. rewrite Ho, Hn. eexists. reflexivity. Qed.
Theorem C52_too_many_redirects : forall ue w uri args, length (fst (await_connect ue w uri args)) = 10%nat ->
  (exists u, w (fst (await_connect ue w uri args)) = Redirects u) -> exists e, snd (await_connect ue w uri args) = Failed e.
Proof.
  intros ue w uri args. unfold await_connect. destruct (connect_init ue uri args) as [st|e]; [|discriminate].
  generalize max_redirects_allowed. generalize (@nil attempt). intros past n _. revert st past. induction n as [|n IH]; intros st past; cbn [connect_loop]; [cbn; eauto|].
  destruct (create_connection (cs_connector st)) as [[p tls]|e]; [|cbn; eauto]. cbv zeta. set (past' := past ++ _). clearbody past'.
  destruct (w past') as [|u|e] eqn:W; cbn [fst snd]; [intros [u Hu]; rewrite W in Hu; discriminate| |eauto].
  destruct (handle_redirect ue st u) as [st'|e]; cbn [fst snd]; [apply IH|eauto].
Qed.

Definition no_args : connect_args := {| ca_path := None; ca_ssl := None; ca_sock := false; ca_host := None; ca_port := None |}.
(* a server that redirects to itself, and one that redirects three times *)
Definition always : world := fun past => Redirects (s "wss://example.com/next").
Definition thrice : world := fun past => match length past with
  | 1%nat => Redirects (s "ws://two.example/") | 2%nat => Redirects (s "wss://three.example/x") | 3%nat => Redirects (s "wss://three.example/y") | _ => Opens end.
Definition shape (r : list attempt * connect_end) : list (bool * str * bool) :=
  map (fun a => (uri_secure (at_uri a), uri_host (at_uri a), at_tls a)) (fst r).
Example C52_applies :
  shape (await_connect ex_uri_env always (s "ws://example.com/") no_args) =
    (false, s "example.com", false) :: repeat (true, s "example.com", false) 9 /\
  snd (await_connect ex_uri_env always (s "ws://example.com/") no_args) = Failed (SecurityError (s "too many redirects")) /\
  shape (await_connect ex_uri_env thrice (s "ws://one.example/") no_args) =
    [(false, s "one.example", false); (false, s "two.example", false); (true, s "three.example", false); (true, s "three.example", false)] /\
  snd (await_connect ex_uri_env thrice (s "wss://one.example/") no_args) = Failed (SecurityError (s "redirect from WSS to WS")) /\
  shape (await_connect ex_uri_env thrice (s "wss://one.example/") no_args) = [(true, s "one.example", true)].
Proof. repeat split; vm_compute; reflexivity. Qed.

(* ---- C53 ---- *)

(* If the first URI is a wss URI, and the argument ssl isn't None or False, all attempts use TLS.
   Missing: redirects from a ws URI to a wss URI, and ssl=None; see C53_wss_uses_tls_refuted. *)
Theorem C53_wss_uses_tls_partial : forall ue w uri args wsuri,
  parse_uri ue uri = Ok wsuri -> uri_secure wsuri = true -> ca_ssl args <> Some SslNone -> ca_ssl args <> Some SslFalse ->
  forall a, In a (fst (await_connect ue w uri args)) -> at_tls a = true.
Proof.
  intros ue w uri args wsuri Hp Hs N1 N2. unfold await_connect, connect_init. rewrite Hp. cbn [rbind]. rewrite Hs. cbn [rbind].
  set (st := {| cs_wsuri := wsuri; cs_connector := _ |}).
  assert (T : truthy (cn_ssl (cs_connector st)) = true).
  { unfold st. cbn [cs_connector]. destruct (ca_path args); cbn [cn_ssl]; destruct (ca_ssl args) as [[]|]; cbn; congruence. }
  clearbody st. change ((fun past => forall a, In a past -> at_tls a = true) (fst (connect_loop ue w max_redirects_allowed st []))).
  apply loop_invariant with (I := fun st past => truthy (cn_ssl (cs_connector st)) = true /\ forall a, In a past -> at_tls a = true).
  - now intros st0 past [_ H].
  - intros st0 past p tls [H1 H2] C past'.
    assert (Ht : tls = true).
    { unfold create_connection in C. destruct (cn_unix (cs_connector st0)), (cn_args (cs_connector st0)) as [|[h|pp|ph] [|[h'|pp'|ph'] [|? ?]]]; try discriminate C;
        destruct (cn_sock (cs_connector st0)); try (destruct h, pp'); try discriminate C; apply ok_inj, pair_equal_spec in C as [_ <-]; exact H1. }
    assert (N : forall a, In a past' -> at_tls a = true). { intros a I. apply in_app_iff in I as [I|[<-|[]]]; [now apply H2|exact Ht]. }
    split; [exact N|]. intros u st' _ R. apply redirect_view in R as (_ & _ & E & _). rewrite E. auto.
  - split; [exact T|intros a []].
Qed.
Example C53_applies : exists wsuri, parse_uri ex_uri_env (s "wss://one.example/") = Ok wsuri /\ uri_secure wsuri = true /\
  shape (await_connect ex_uri_env (fun past => if (length past <? 3)%nat then Redirects (s "wss://two.example/") else Opens) (s "wss://one.example/") no_args) =
    [(true, s "one.example", true); (true, s "two.example", true); (true, s "two.example", true)].
Proof. eexists. split; [vm_compute; reflexivity|]. split; vm_compute; reflexivity. Qed.

(* After a redirect from a ws URI to a wss URI, TLS isn't used.  With ssl=None, it's never used. *)
Theorem C53_wss_uses_tls_refuted : forall ue w uri args wsuri,
  parse_uri ue uri = Ok wsuri ->
  (uri_secure wsuri = false \/ ca_ssl args = Some SslNone) ->
  forall a, In a (fst (await_connect ue w uri args)) -> at_tls a = false.
Proof.
  intros ue w uri args wsuri Hp Hs. unfold await_connect, connect_init. rewrite Hp. cbn [rbind].
  match goal with |- context [rbind ?m _] => destruct m as [ssl|] eqn:Es end; cbn [rbind]; [|intros a []].
  set (st := {| cs_wsuri := wsuri; cs_connector := _ |}).
  assert (T : truthy (cn_ssl (cs_connector st)) = false).
  { unfold st. cbn [cs_connector]. assert (Ts : truthy ssl = false).
    { destruct Hs as [Hs|Hs]; rewrite Hs in Es; [destruct (ca_ssl args) as [[]|]; try discriminate Es; apply ok_inj in Es; now subst ssl|].
      destruct (uri_secure wsuri); apply ok_inj in Es; now subst ssl. }
    destruct (ca_path args); exact Ts. }
  clearbody st. change ((fun past => forall a, In a past -> at_tls a = false) (fst (connect_loop ue w max_redirects_allowed st []))).
  apply loop_invariant with (I := fun st past => truthy (cn_ssl (cs_connector st)) = false /\ forall a, In a past -> at_tls a = false).
  - now intros st0 past [_ H].
  - intros st0 past p tls [H1 H2] C past'.
    assert (Ht : tls = false).
    { unfold create_connection in C. destruct (cn_unix (cs_connector st0)), (cn_args (cs_connector st0)) as [|[h|pp|ph] [|[h'|pp'|ph'] [|? ?]]]; try discriminate C;
        destruct (cn_sock (cs_connector st0)); try (destruct h, pp'); try discriminate C; apply ok_inj, pair_equal_spec in C as [_ <-]; exact H1. }
    assert (N : forall a, In a past' -> at_tls a = false). { intros a I. apply in_app_iff in I as [I|[<-|[]]]; [now apply H2|exact Ht]. }
    split; [exact N|]. intros u st' _ R. apply redirect_view in R as (_ & _ & E & _). rewrite E. auto.
  - split; [exact T|intros a []].
Qed.
(* C52_applies has attempts for wss URIs without TLS. *)
Example C53_refuted_applies :
  shape (await_connect ex_uri_env (fun _ => Opens) (s "wss://one.example/") {| ca_path := None; ca_ssl := Some SslNone; ca_sock := false; ca_host := None; ca_port := None |}) =
  [(true, s "one.example", false)].
Proof. vm_compute. reflexivity. Qed.

(* ---- C73 ---- *)

(* Without the arguments path and sock, after a redirect to another host or port, the connection
   is made to the host and port of the new URI; after a redirect to the same host and port, it's
   made to the same peer.  The first connection is made to the host and port of the URI,
   except if the arguments host and port are given.
   Missing: path and sock; see C73_cross_origin_redirect_refuted. *)
Definition peer_of (u : ws_uri) : peer := PeerTcp (Some (uri_host u)) (Some (uri_port u)).
Definition same_origin (u u' : ws_uri) : Prop := uri_host u = uri_host u' /\ uri_port u = uri_port u'.
Theorem C73_redirect_peer_partial : forall ue w uri args, ca_path args = None -> ca_sock args = false ->
  (forall a after, fst (await_connect ue w uri args) = a :: after ->
     at_peer a = PeerTcp (match ca_host args with Some h => h | None => Some (uri_host (at_uri a)) end)
                         (match ca_port args with Some p => p | None => Some (uri_port (at_uri a)) end)) /\
  (forall before a a' after, fst (await_connect ue w uri args) = before ++ [a; a'] ++ after ->
     (same_origin (at_uri a) (at_uri a') -> at_peer a' = at_peer a) /\
     (~ same_origin (at_uri a) (at_uri a') -> at_peer a' = peer_of (at_uri a'))).
Proof.
  intros ue w uri args Np Ns. unfold await_connect. destruct (connect_init ue uri args) as [st|e] eqn:Hi.
  2:{ split; [intros; discriminate|]. intros [|? ?] ? ? ?; discriminate. }
  unfold connect_init in Hi. destruct (parse_uri ue uri) as [wsuri|]; cbn [rbind] in Hi; [|discriminate].
  match type of Hi with context [rbind ?m _] => destruct m as [ssl|]; cbn [rbind] in Hi; [|discriminate] end. rewrite Np, Ns in Hi. apply ok_inj in Hi.
  set (ph := fun u => match ca_host args with Some h => h | None => Some (uri_host u) end). set (pp := fun u => match ca_port args with Some p => p | None => Some (uri_port u) end).
  set (Q := fun past : list attempt => (forall a after, past = a :: after -> at_peer a = PeerTcp (ph (at_uri a)) (pp (at_uri a))) /\
    (forall before a a' after, past = before ++ [a; a'] ++ after ->
     (same_origin (at_uri a) (at_uri a') -> at_peer a' = at_peer a) /\ (~ same_origin (at_uri a) (at_uri a') -> at_peer a' = peer_of (at_uri a')))).
  change (Q (fst (connect_loop ue w max_redirects_allowed st []))).
  apply loop_invariant with (I := fun st past => Q past /\ cn_sock (cs_connector st) = false /\ cn_unix (cs_connector st) = false /\
    (past = [] -> cn_args (cs_connector st) = [PHost (ph (cs_wsuri st)); PPort (pp (cs_wsuri st))]) /\
    (forall before a, past = before ++ [a] ->
      (same_origin (at_uri a) (cs_wsuri st) -> exists h p, cn_args (cs_connector st) = [PHost h; PPort p] /\ at_peer a = PeerTcp h p) /\
      (~ same_origin (at_uri a) (cs_wsuri st) -> cn_args (cs_connector st) = [PHost (Some (uri_host (cs_wsuri st))); PPort (Some (uri_port (cs_wsuri st)))]))).
  - now intros st0 past [H _].
  - intros st0 past p tls ([Q1 Q2] & Hs & Hu & H0 & H1) C past'. unfold create_connection in C. rewrite Hu, Hs in C.
    assert (Hargs : exists h pt, cn_args (cs_connector st0) = [PHost h; PPort pt] /\ p = PeerTcp h pt).
    { destruct (cn_args (cs_connector st0)) as [|[h|?|?] [|[?|pt|?] [|? ?]]]; try discriminate C. exists h, pt. split; [reflexivity|].
      destruct h, pt; try discriminate C; apply ok_inj, pair_equal_spec in C as [<- _]; reflexivity. }
    destruct Hargs as (h & pt & Ha & ->). rewrite Ha in *.
    assert (N : Q past').
    { split.
      - intros a after E. unfold past' in E. destruct past as [|b past].
        + cbn [app] in E. injection E as <- _. cbn [at_peer at_uri]. specialize (H0 eq_refl). injection H0 as -> ->. reflexivity.
        + cbn [app] in E. injection E as <- _. now apply (Q1 b past).
      - intros before a a' after E. destruct after as [|x after] using rev_ind.
        + unfold past' in E. cbn [app] in E. change (before ++ [a; a']) with (before ++ ([a] ++ [a'])) in E. rewrite app_assoc in E. apply app_inj_tail in E as [E1 E2].
          destruct (H1 before a E1) as [S1 S2]. subst a'. cbn [at_uri at_peer]. split.
          * intros So. destruct (S1 So) as (h' & p' & E & ->). now injection E as -> ->.
          * intros Nso. specialize (S2 Nso). injection S2 as -> ->. reflexivity.
        + clear IHafter. unfold past' in E. rewrite !app_assoc in E. apply app_inj_tail in E as [E _]. rewrite <- app_assoc in E. now apply (Q2 before a a' after). }
    split; [exact N|]. intros u st' _ R. apply redirect_view in R as (_ & _ & _ & Es & Eu & D). rewrite Es, Eu. split; [exact N|]. split; [exact Hs|]. split; [exact Hu|].
    split; [intros E; destruct past; discriminate|]. intros before a E. unfold past' in E. apply app_inj_tail in E as [_ <-]. cbn [at_uri at_peer]. split.
    + intros [S1 S2]. destruct D as [(_ & _ & ->)|(D & _)]; [exists h, pt; auto|]. exfalso. apply D. auto.
    + intros Nso. destruct D as [(D1 & D2 & _)|(_ & D)]; [exfalso; apply Nso; now split|exact D].
  - subst st. split; [split; [intros; discriminate|intros [|? ?] ? ? ?; discriminate]|]. cbn [cs_connector cn_sock cn_unix cn_args cs_wsuri]. do 2 (split; [reflexivity|]).
    split; [reflexivity|]. intros [|? ?] ? E; discriminate.
Qed.

(* With path or sock, a redirect to another host or port fails with TypeError or ValueError. *)
Theorem C73_cross_origin_redirect_refuted : forall ue w uri args before a after u new,
  fst (await_connect ue w uri args) = before ++ [a] ++ after -> ca_path args <> None \/ ca_sock args = true ->
  w (before ++ [a]) = Redirects u -> parse_uri ue u = Ok new -> ~ same_origin (at_uri a) new ->
  uri_secure (at_uri a) = false \/ uri_secure new = true -> (length (before ++ [a]) < 10)%nat ->
  after = [] /\ (snd (await_connect ue w uri args) = Failed TypeError \/ snd (await_connect ue w uri args) = Failed ValueError).
Proof.
  intros ue w uri args before a after u new. unfold await_connect. destruct (connect_init ue uri args) as [st|e] eqn:Hi; [|destruct before; discriminate].
  intros E Ha W P So Sec. assert (I : cn_unix (cs_connector st) = true \/ cn_sock (cs_connector st) = true).
  { unfold connect_init in Hi. destruct (parse_uri ue uri) as [wsuri|]; cbn [rbind] in Hi; [|discriminate].
    match type of Hi with context [rbind ?m _] => destruct m as [ssl|]; cbn [rbind] in Hi; [|discriminate] end. apply ok_inj in Hi. subst st. cbn [cs_connector].
    destruct Ha as [Ha|Ha]; destruct (ca_path args); cbn [cn_unix cn_sock]; try congruence; auto. }
  clear Hi Ha.
  enough (G : forall n st past, cn_unix (cs_connector st) = true \/ cn_sock (cs_connector st) = true -> (length past <= length before)%nat ->
    fst (connect_loop ue w n st past) = before ++ [a] ++ after -> (length (before ++ [a]) < length past + n)%nat ->
    after = [] /\ (snd (connect_loop ue w n st past) = Failed TypeError \/ snd (connect_loop ue w n st past) = Failed ValueError)).
  { intros L. apply (G max_redirects_allowed st []); [exact I|cbn; lia|exact E|exact L]. }
  clear E I st. induction n as [|n IH]; intros st past I Lp; cbn [connect_loop].
  { cbn [fst snd]. intros E L. rewrite app_length in L. cbn in L. lia. }
  destruct (create_connection (cs_connector st)) as [[p tls]|e] eqn:C; cbn [fst snd].
  2:{ intros E _. exfalso. apply (f_equal (@length attempt)) in E. rewrite !app_length in E. cbn in E. lia. }
  set (x := {| at_uri := cs_wsuri st; at_peer := p; at_tls := tls |}). cbv zeta. intros E L.
  destruct (loop_extends ue w (S n) st past) as [rest Hr]. cbn [connect_loop] in Hr. rewrite C in Hr. fold x in Hr. cbv zeta in Hr. rewrite Hr in E.
  destruct (Nat.eq_dec (length past) (length before)) as [Eq|Ne].
  - assert (Hpre : past = before). { apply (f_equal (firstn (length past))) in E. rewrite firstn_app, Nat.sub_diag, firstn_O, app_nil_r, firstn_all in E.
      rewrite Eq, firstn_app, Nat.sub_diag, firstn_O, app_nil_r, firstn_all in E. exact E. }
    subst past. apply app_inv_head in E. subst rest.
    assert (Hx : exists r, fst (match w (before ++ [x]) with
        | Opens => (before ++ [x], Connected x) | Redirects uri0 => match handle_redirect ue st uri0 with Ok st' => connect_loop ue w n st' (before ++ [x]) | Raise e => (before ++ [x], Failed e) end
        | Fails e => (before ++ [x], Failed e) end) = (before ++ [x]) ++ r).
    { destruct (w (before ++ [x])) as [|u'|e]; [exists []; now rewrite app_nil_r| |exists []; now rewrite app_nil_r].
      destruct (handle_redirect ue st u') as [st'|e]; [apply loop_extends|exists []; now rewrite app_nil_r]. }
    destruct Hx as [r Hx]. rewrite Hx, <- app_assoc in Hr. apply app_inv_head in Hr. injection Hr as Ex ->.
    rewrite Ex, W in *. destruct (handle_redirect ue st u) as [st'|e] eqn:R.
    + pose proof (redirect_view ue st u st' R) as (Pn & _ & _ & Es & Eu & D). rewrite P in Pn. apply ok_inj in Pn.
      assert (At : at_uri a = cs_wsuri st) by now rewrite <- Ex. destruct D as [(D1 & D2 & _)|(_ & D)]; [exfalso; apply So; rewrite At, Pn; now split|].
      destruct n as [|n]; [rewrite app_length in L; cbn in L; lia|]. cbn [connect_loop] in *.
      assert (F : create_connection (cs_connector st') = Raise TypeError \/ create_connection (cs_connector st') = Raise ValueError).
      { unfold create_connection. rewrite D, Es, Eu. destruct (cn_unix (cs_connector st)); [now left|]. destruct I as [I|I]; [discriminate|]. rewrite I. now right. }
      destruct F as [F|F]; rewrite F in *; cbn [fst snd] in *; (split; [|auto]); apply (f_equal (@length attempt)) in Hx; rewrite !app_length in Hx; destruct after; [reflexivity|cbn in Hx; lia|reflexivity|cbn in Hx; lia].
    + exfalso. unfold handle_redirect in R. rewrite P in R. cbn [rbind] in R. assert (At : at_uri a = cs_wsuri st) by now rewrite <- Ex. rewrite At in Sec.
      destruct Sec as [Sec|Sec]; rewrite Sec in R; cbn [andb negb] in R; [discriminate|]. rewrite Bool.andb_false_r in R. discriminate.
  - assert (Hlt : (length (past ++ [x]) <= length before)%nat) by (rewrite app_length; cbn; lia).
    assert (Neq : past ++ [x] <> before ++ [a] ++ after). { intros Q. apply (f_equal (@length attempt)) in Q. rewrite !app_length in Q. cbn in Q. lia. }
    rewrite E in Hr. destruct (w (past ++ [x])) as [|u'|e]; cbn [fst] in Hr; [contradiction| |contradiction].
    destruct (handle_redirect ue st u') as [st'|e] eqn:R; cbn [fst] in Hr; [|contradiction].
    apply redirect_view in R as (_ & _ & _ & Es & Eu & _). apply IH; [rewrite Es, Eu; exact I|exact Hlt|exact Hr|]. rewrite (app_length past). cbn. lia.
Qed.
Definition unix_args : connect_args := {| ca_path := Some (s "/run/ws"); ca_ssl := None; ca_sock := false; ca_host := None; ca_port := None |}.
Definition to_two : world := fun past => match length past with 1%nat => Redirects (s "ws://two.example:8000/") | _ => Opens end.
Example C73_applies :
  map at_peer (fst (await_connect ex_uri_env to_two (s "ws://one.example/") no_args)) =
    [PeerTcp (Some (s "one.example")) (Some 80%Z); PeerTcp (Some (s "two.example")) (Some 8000%Z)] /\
  await_connect ex_uri_env to_two (s "ws://one.example/") unix_args =
    ([{| at_uri := {| uri_secure := false; uri_host := s "one.example"; uri_port := 80; uri_resource_name := s "/"; uri_user_info := None |};
         at_peer := PeerUnix (s "/run/ws"); at_tls := false |}], Failed TypeError).
Proof. split; vm_compute; reflexivity. Qed.

Print Assumptions C52_at_most_ten_handshakes.
Print Assumptions C52_follows_redirects.
Print Assumptions C52_never_downgrades.
Print Assumptions C52_downgrade_refused.
Print Assumptions C52_too_many_redirects.
Print Assumptions C53_wss_uses_tls_partial.
Print Assumptions C53_wss_uses_tls_refuted.
Print Assumptions C73_redirect_peer_partial.
Print Assumptions C73_cross_origin_redirect_refuted.
