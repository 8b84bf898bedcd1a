(* C102: where serve() listens, and the protocols that connect() and serve() create. *)
From Verif Require Import Base.Prelude Base.PreludeFacts Model.Client Model.Uri Model.Connect Model.Listen Properties.Uri Properties.Redirects.

(* Where a server listens, according to the documentation of serve(), unix_serve(),
   loop.create_server() and loop.create_unix_server(): on host and port, at least one of which is
   given, on a Unix socket, or on a socket made by the user. *)
Inductive listens {P} (a : serve_args P) : listener -> Prop :=
| Listens_tcp : sv_unix a = false -> (sv_host a <> None \/ sv_port a <> None) -> sv_sock a = false ->
    listens a (ListenTcp (sv_host a) (sv_port a))
| Listens_sock : sv_unix a = false -> sv_host a = None -> sv_port a = None -> sv_sock a = true -> listens a ListenSock
| Listens_unix path : sv_unix a = true -> sv_host a = None -> sv_port a = None -> sv_path a = Some path -> sv_sock a = false ->
    listens a (ListenUnix path)
| Listens_unix_sock : sv_unix a = true -> sv_host a = None -> sv_port a = None -> sv_path a = None -> sv_sock a = true ->
    listens a ListenSock.
(* ssl is an SSLContext or None; compression is "deflate" or None *)
Definition tls_context (ssl : option ssl_arg) (tls : bool) : Prop :=
  (tls = true /\ ssl = Some SslContext) \/ (tls = false /\ (ssl = None \/ ssl = Some SslNone)).
Definition compression_known (c : option str) : Prop := c = None \/ c = Some (s "deflate").
(* create_protocol if it's given; else klass, its former name; else the class of the library *)
Inductive chosen {P} (default : P) (create_protocol klass : option P) : P -> Prop :=
| Chosen_create c : create_protocol = Some c -> chosen default create_protocol klass c
| Chosen_klass k : create_protocol = None -> klass = Some k -> chosen default create_protocol klass k
| Chosen_default : create_protocol = None -> klass = None -> chosen default create_protocol klass default.
Lemma chosen_iff {P} (default : P) c k p : choose_protocol default c k = p <-> chosen default c k p.
Proof.
  unfold choose_protocol. split.
  - intros <-. destruct c as [c|]; [now apply Chosen_create|]. destruct k as [k|]; [now apply Chosen_klass|now apply Chosen_default].
  - intros [c' ->|k' -> ->| -> ->]; reflexivity.
Qed.

(* await serve(...) listens there, with TLS or not, and connections are handled by protocols made by this factory, or it
   raises an exception. *)
Theorem C102_serve : forall P (default : P) a l tls p,
  await_serve default a = Ok (l, tls, p) <->
  listens a l /\ tls_context (sv_ssl a) tls /\ compression_known (sv_compression a) /\
  chosen default (sv_create_protocol a) (sv_klass a) (pr_factory p) /\ pr_host p = sv_host a /\ pr_port p = sv_port a /\ pr_secure p = tls.
Proof.
  intros P default a l tls p. unfold await_serve.
  set (f := choose_protocol default (sv_create_protocol a) (sv_klass a)).
  assert (K : (match sv_compression a with None => Ok tt | Some c => if str_eqb c (s "deflate") then Ok tt else Raise ValueError end = Ok tt /\ compression_known (sv_compression a)) \/
    (match sv_compression a with None => Ok tt | Some c => if str_eqb c (s "deflate") then Ok tt else Raise ValueError end = Raise ValueError /\ ~ compression_known (sv_compression a))).
  { destruct (sv_compression a) as [c|]; [|left; split; [reflexivity|now left]]. destruct (str_eqb c (s "deflate")) eqn:Q.
    - apply str_eqb_eq in Q. subst c. left. split; [reflexivity|now right].
    - right. split; [reflexivity|]. intros [H|H]; [discriminate|]. apply some_inj in H. subst c. vm_compute in Q. discriminate. }
  destruct K as [[-> K]|[-> K]]; cbn [rbind]; [|split; [discriminate|tauto]].
  split.
  - intros H. destruct a as [host port path unix ssl sock cp kl ti co]. cbn [sv_host sv_port sv_path sv_unix sv_ssl sv_sock sv_create_protocol sv_klass sv_compression] in *.
    assert (Ef : f = f) by reflexivity.
    destruct unix, host as [host|], port as [port|], path as [path|], sock, ssl as [[]|]; cbn in H; try discriminate H; apply ok_inj in H; injection H as <- <- <-;
      cbn [pr_factory pr_host pr_port pr_secure];
      (split; [first [apply Listens_unix; reflexivity|apply Listens_unix_sock; reflexivity|apply Listens_sock; reflexivity
                     |apply (Listens_tcp (P := P)); cbn; [reflexivity|first [left; discriminate|right; discriminate]|reflexivity]]|]);
      (split; [unfold tls_context; auto|]); (split; [exact K|]); (split; [apply chosen_iff; reflexivity|]); auto.
  - intros (L & T & _ & C & H1 & H2 & H3). apply chosen_iff in C. fold f in C. destruct p as [pf ph pp ps]. cbn in *. subst pf ph pp ps.
    assert (Sc : match sv_ssl a with None | Some SslNone => false | Some _ => true end = tls) by (destruct T as [[-> ->]|[-> [-> | ->]]]; reflexivity).
    rewrite Sc. assert (Tt : truthy (sv_ssl a) = tls) by (destruct T as [[-> ->]|[-> [-> | ->]]]; reflexivity).
    assert (Nb : forall A (x y : A), match sv_ssl a with Some SslTrue | Some SslFalse => x | _ => y end = y) by (intros; destruct T as [[-> ->]|[-> [-> | ->]]]; reflexivity).
    destruct L as [U H N|U Hh Hp N|path U Hh Hp Pa N|U Hh Hp Pa N]; rewrite U.
    + unfold create_server. rewrite Nb, N, Tt. destruct (sv_host a), (sv_port a); try reflexivity. destruct H; congruence.
    + unfold create_server. rewrite Nb, Hh, Hp, N, Tt. reflexivity.
    + unfold create_unix_server. rewrite Hh, Hp, Nb, Pa, N, Tt. reflexivity.
    + unfold create_unix_server. rewrite Hh, Hp, Nb, Pa, N, Tt. reflexivity.
Qed.
(* unix_serve() never listens on a TCP port. *)
Theorem C102_unix_serve : forall P (default : P) path a l tls p,
  await_serve default (unix_serve_args path a) = Ok (l, tls, p) ->
  sv_host a = None /\ sv_port a = None /\
  ((exists x, path = Some x /\ l = ListenUnix x /\ sv_sock a = false) \/ (path = None /\ l = ListenSock /\ sv_sock a = true)).
Proof.
  intros P default path a l tls p H. apply C102_serve in H as (L & _). unfold unix_serve_args in L.
  inversion L; cbn in *; subst; try discriminate; repeat split; auto. left. eauto.
Qed.
(* "serve() with a path listens on this Unix socket": it ignores the path unless unix is true. *)
Theorem C102_path_refuted : forall P (default : P) host port path path' ssl sock cp kl ti co,
  let args path := {| sv_host := host; sv_port := port; sv_path := path; sv_unix := false; sv_ssl := ssl; sv_sock := sock;
                      sv_create_protocol := cp; sv_klass := kl; sv_timeout := ti; sv_compression := co |} in
  await_serve default (args path) = await_serve default (args path').
Proof. reflexivity. Qed.

(* DeprecationWarning is raised for deprecated arguments, and only for them. *)
Theorem C102_warnings : forall P timeout (klass : option P) m,
  In m (argument_warnings timeout klass) <->
  (m = s "rename timeout to close_timeout" /\ timeout <> None) \/ (m = s "rename klass to create_protocol" /\ klass <> None).
Proof.
  intros P timeout klass m. unfold argument_warnings. rewrite in_app_iff. split.
  - intros [H|H]; [destruct timeout|destruct klass]; try destruct H as [<-|[]]; try destruct H; [left|right]; split; congruence.
  - intros [[-> H]|[-> H]]; [left; destruct timeout|right; destruct klass]; try congruence; now left.
Qed.

(* ---- connect() ---- *)

(* The states of an instance of Connect: after __init__, and after redirects *)
Inductive reached (ue : uri_env) (uri : str) (a : connect_args) : connect_state -> Prop :=
| Reached_init st : connect_init ue uri a = Ok st -> reached ue uri a st
| Reached_redirect st new st' : reached ue uri a st -> handle_redirect ue st new = Ok st' -> reached ue uri a st'.
(* The attempt is made in this state. *)
Definition made_in (a : attempt) (st : connect_state) : Prop :=
  at_uri a = cs_wsuri st /\ create_connection (cs_connector st) = Ok (at_peer a, at_tls a).
Lemma attempts_reached ue w uri args a : In a (fst (await_connect ue w uri args)) -> exists st, reached ue uri args st /\ made_in a st.
Proof.
  unfold await_connect. destruct (connect_init ue uri args) as [st|e] eqn:Hi; [|intros []].
  revert a. change ((fun past => forall a, In a past -> exists st, reached ue uri args st /\ made_in a st) (fst (connect_loop ue w max_redirects_allowed st []))).
  apply loop_invariant with (I := fun st past => reached ue uri args st /\ forall a, In a past -> exists st, reached ue uri args st /\ made_in a st).
  - now intros st0 past [_ H].
  - intros st0 past p tls [H1 H2] C past'.
    assert (N : forall a, In a past' -> exists st, reached ue uri args st /\ made_in a st).
    { intros a I. apply in_app_iff in I as [I|[<-|[]]]; [now apply H2|]. exists st0. split; [exact H1|]. split; [reflexivity|exact C]. }
    split; [exact N|]. intros u st' _ R. split; [now apply (Reached_redirect ue uri args st0 u)|exact N].
  - split; [now apply Reached_init|intros a []].
Qed.
Lemma reached_factory ue uri args st : reached ue uri args st ->
  exists first, parse_uri ue uri = Ok first /\ cn_factory (cs_connector st) = (uri_host (cs_wsuri st), uri_port (cs_wsuri st), uri_secure first).
Proof.
  induction 1 as [st Hi|st new st' _ (first & P & IH) R].
  - unfold connect_init in Hi. destruct (parse_uri ue uri) as [wsuri|]; cbn [rbind] in Hi; [|discriminate].
    match type of Hi with context [rbind ?m _] => destruct m as [ssl|]; cbn [rbind] in Hi; [|discriminate] end. apply ok_inj in Hi. subst st.
    exists wsuri. split; [reflexivity|]. destruct (ca_path args); reflexivity.
  - exists first. split; [exact P|]. unfold handle_redirect in R. destruct (parse_uri ue new) as [u|]; cbn [rbind] in R; [|discriminate].
    destruct (_ && _); [discriminate|]. apply ok_inj in R. subst st'. cbn [cs_wsuri cs_connector].
    destruct (str_eqb (uri_host (cs_wsuri st)) (uri_host u) && (uri_port (cs_wsuri st) =? uri_port u)%Z) eqn:Q; cbn [cn_factory].
    + apply andb_prop in Q as [Q1 Q2]. apply str_eqb_eq in Q1. apply Z.eqb_eq in Q2. now rewrite IH, Q1, Q2.
    + now rewrite IH.
Qed.
(* The attributes host and port of the protocol are those of the URI of the attempt, even after
   redirects; secure tells whether the connection uses TLS.  Missing: a wss URI with ssl=None or
   ssl=False; see C102_secure_refuted. *)
Theorem C102_client_attributes_partial : forall ue w uri args a, In a (fst (await_connect ue w uri args)) ->
  exists st secure, reached ue uri args st /\ made_in a st /\
    cn_factory (cs_connector st) = (uri_host (at_uri a), uri_port (at_uri a), secure) /\
    (ca_ssl args <> Some SslNone -> ca_ssl args <> Some SslFalse -> secure = at_tls a).
Proof.
  intros ue w uri args a I. destruct (attempts_reached _ _ _ _ _ I) as (st & R & M). destruct (reached_factory _ _ _ _ R) as (first & P & F).
  exists st, (uri_secure first). split; [exact R|]. split; [exact M|]. split; [destruct M as [-> _]; exact F|].
  intros N1 N2. destruct (uri_secure first) eqn:S.
  - symmetry. exact (C53_wss_uses_tls_partial _ _ _ _ _ P S N1 N2 _ I).
  - symmetry. exact (C53_wss_uses_tls_refuted _ _ _ _ _ P (or_introl S) _ I).
Qed.
(* "secure tells whether the connection uses TLS": with a wss URI and ssl=None, secure is True but
   no attempt uses TLS. *)
Theorem C102_secure_refuted : forall ue w uri args first a, parse_uri ue uri = Ok first -> uri_secure first = true ->
  ca_ssl args = Some SslNone -> In a (fst (await_connect ue w uri args)) ->
  at_tls a = false /\ exists st, reached ue uri args st /\ made_in a st /\ snd (cn_factory (cs_connector st)) = true.
Proof.
  intros ue w uri args first a P S N I. split; [exact (C53_wss_uses_tls_refuted _ _ _ _ _ P (or_intror N) _ I)|].
  destruct (attempts_reached _ _ _ _ _ I) as (st & R & M). exists st. split; [exact R|]. split; [exact M|].
  destruct (reached_factory _ _ _ _ R) as (f & P' & F). rewrite P in P'. apply ok_inj in P'. subst f. now rewrite F.
Qed.

(* unix_connect() connects to the Unix socket in all attempts. *)
Theorem C102_unix_connect : forall ue w path uri args a, In a (fst (await_connect ue w (unix_connect_uri uri) (unix_connect_args path args))) ->
  at_peer a = PeerUnix path.
Proof.
  intros ue w path uri args a I. destruct (attempts_reached _ _ _ _ _ I) as (st & R & [_ C]).
  assert (G : cn_unix (cs_connector st) = true /\ forall p, cn_args (cs_connector st) = [PPath p] -> p = path).
  { clear C I a. induction R as [st Hi|st new st' _ [U A] R].
    - unfold connect_init in Hi. destruct (parse_uri ue _) as [wsuri|]; cbn [rbind] in Hi; [|discriminate].
      match type of Hi with context [rbind ?m _] => destruct m as [ssl|]; cbn [rbind] in Hi; [|discriminate] end. apply ok_inj in Hi. subst st. cbn. split; [reflexivity|]. intros p H. now injection H.
    - apply redirect_view in R as (_ & _ & _ & _ & Eu & [(_ & _ & ->)|(_ & E)]); [now split|]. rewrite Eu, E. split; [exact U|discriminate]. }
  destruct G as [U A]. unfold create_connection in C. rewrite U in C.
  destruct (cn_args (cs_connector st)) as [|[h|p|p] [|? ?]] eqn:E; try discriminate C. rewrite (A p eq_refl) in C.
  destruct (cn_sock (cs_connector st)); [discriminate|]. now apply ok_inj, pair_equal_spec in C as [<- _].
Qed.

Definition ex_serve_args (host : option str) (port : option Z) (ssl : option ssl_arg) : serve_args nat := {|
  sv_host := host; sv_port := port; sv_path := Some (s "/run/ws"); sv_unix := false; sv_ssl := ssl; sv_sock := false;
  sv_create_protocol := None; sv_klass := Some 1%nat; sv_timeout := None; sv_compression := Some (s "deflate") |}.
Example C102_applies :
  await_serve 0%nat (ex_serve_args (Some (s "localhost")) (Some 8765%Z) None) =
    Ok (ListenTcp (Some (s "localhost")) (Some 8765%Z), false, {| pr_factory := 1%nat; pr_host := Some (s "localhost"); pr_port := Some 8765%Z; pr_secure := false |}) /\
  await_serve 0%nat (unix_serve_args (Some (s "/run/ws")) (ex_serve_args None None (Some SslContext))) =
    Ok (ListenUnix (s "/run/ws"), true, {| pr_factory := 1%nat; pr_host := None; pr_port := None; pr_secure := true |}) /\
  await_serve 0%nat (ex_serve_args None None None) = Raise ValueError /\
  await_serve 0%nat (ex_serve_args None (Some 8765%Z) (Some SslTrue)) = Raise TypeError /\
  await_serve 0%nat (unix_serve_args (Some (s "/run/ws")) (ex_serve_args None (Some 8765%Z) None)) = Raise AssertionError.
Proof. repeat split; vm_compute; reflexivity. Qed.
Example C102_client_applies :
  map at_peer (fst (await_connect ex_uri_env (fun past => match past with [_] => Redirects (s "ws://localhost/new") | _ => Opens end)
    (unix_connect_uri None) (unix_connect_args (s "/run/ws") no_args))) = [PeerUnix (s "/run/ws"); PeerUnix (s "/run/ws")] /\
  map at_tls (fst (await_connect ex_uri_env (fun _ => Opens) (s "wss://one.example/")
    {| ca_path := None; ca_ssl := Some SslNone; ca_sock := false; ca_host := None; ca_port := None |})) = [false] /\
  map at_tls (fst (await_connect ex_uri_env (fun past => match past with [_] => Redirects (s "wss://two.example/") | _ => Opens end)
    (s "wss://one.example/") no_args)) = [true; true].
Proof. repeat split; vm_compute; reflexivity. Qed.

Print Assumptions C102_serve.
Print Assumptions C102_unix_serve.
Print Assumptions C102_path_refuted.
Print Assumptions C102_warnings.
Print Assumptions C102_client_attributes_partial.
Print Assumptions C102_secure_refuted.
Print Assumptions C102_unix_connect.
