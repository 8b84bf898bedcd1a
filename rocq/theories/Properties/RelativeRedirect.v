(* C73: redirects that can't be followed. *)
From Verif Require Import Base.Prelude Base.PreludeFacts Model.Client Model.Uri Model.Connect Properties.Uri Properties.Redirects.
Local Open Scope N_scope.

Section Loop.
Context (ue : uri_env) (w : world).
Lemma stops_at_invalid_uri before a after u e : w (before ++ [a]) = Redirects u -> parse_uri ue u = Raise e ->
  forall n st past, (length past <= length before)%nat -> fst (connect_loop ue w n st past) = before ++ [a] ++ after ->
  after = [] /\ snd (connect_loop ue w n st past) = Failed e.
Proof.
  intros W P. induction n as [|n IH]; intros st past Lp; cbn [connect_loop].
  { cbn [fst]. intros H. exfalso. apply (f_equal (@length attempt)) in H. rewrite !app_length in H. cbn in H. lia. }
  destruct (create_connection (cs_connector st)) as [[p tls]|x]; cbn [fst snd].
  2:{ intros H. exfalso. apply (f_equal (@length attempt)) in H. rewrite !app_length in H. cbn in H. lia. }
  cbv zeta. set (x := Build_attempt _ _ _). clearbody x. intros H.
  assert (Hx : exists r, before ++ [a] ++ after = (past ++ [x]) ++ r).
  { rewrite <- H. destruct (w (past ++ [x])) as [|u'|e']; cbn [fst]; [exists []; now rewrite app_nil_r| |exists []; now rewrite app_nil_r].
    destruct (handle_redirect ue st u') as [st'|e']; cbn [fst]; [apply loop_extends|exists []; now rewrite app_nil_r]. }
  destruct (Nat.eq_dec (length past) (length before)) as [Le|Le].
  - destruct Hx as [r Hx]. rewrite <- app_assoc in Hx.
    assert (Ep : before = past /\ [a] ++ after = [x] ++ r).
    { assert (Lb : length before = length past) by now symmetry. revert Hx Lb. clear. revert past. induction before as [|y before IH]; intros [|z past] Hx L; try discriminate; [auto|].
      cbn [app] in Hx. injection Hx as <- Hx. cbn in L. apply IH in Hx as [-> Hx]; [auto|lia]. }
    destruct Ep as [-> Ep]. injection Ep as <- _. rewrite W in H |- *. unfold handle_redirect in H |- *. rewrite P in H |- *. cbn [rbind fst snd] in H |- *.
    split; [|reflexivity]. apply (f_equal (@length attempt)) in H. rewrite !app_length in H. destruct after; [reflexivity|cbn in H; lia].
  - assert (Lp' : (length (past ++ [x]) <= length before)%nat) by (rewrite app_length; cbn; lia).
    assert (Ne : past ++ [x] <> before ++ [a] ++ after). { intros Q. apply (f_equal (@length attempt)) in Q. rewrite !app_length in Q. cbn in Q. rewrite app_length in Lp'. cbn in Lp'. lia. }
    destruct (w (past ++ [x])) as [|u'|e']; cbn [fst] in H; [contradiction| |contradiction].
    destruct (handle_redirect ue st u') as [st'|e']; cbn [fst] in H; [|contradiction]. now apply IH.
Qed.
End Loop.

Lemma relative_scheme x : split_scheme (47 :: x) = ([], 47 :: x).
Proof. unfold split_scheme. cbn [partition]. change (47 =? 58) with false. cbv iota. destruct (partition 58 x) as [y [z|]]; reflexivity. Qed.
Lemma relative_invalid ue rest : exists e, parse_uri ue (s "/" ++ rest) = Raise e.
Proof.
  assert (C : exists x, clean (s "/" ++ rest) = 47 :: x).
  { unfold clean. change (s "/" ++ rest) with (47 :: rest). cbn [lstrip_control]. change (47 <=? 32) with false. cbv iota. cbn [filter].
    change (negb ((47 =? 9) || (47 =? 10) || (47 =? 13))) with true. cbv iota. eauto. }
  destruct C as [x C]. unfold parse_uri.
  assert (U : (exists e, urlsplit ue (s "/" ++ rest) = Raise e) \/ exists n p q f, urlsplit ue (s "/" ++ rest) = Ok ([], n, p, q, f)).
  { unfold urlsplit. rewrite C, relative_scheme.
    match goal with |- context [rbind ?m _] => destruct m as [[netloc url]|e]; cbn [rbind]; [|eauto] end.
    destruct (match partition 35 url with (u, Some f) => (u, f) | (u, None) => (u, []) end) as [u1 f].
    destruct (match partition 63 u1 with (u, Some f) => (u, f) | (u, None) => (u, []) end) as [u2 q].
    destruct (check_netloc ue netloc); [right; eauto 6|eauto]. }
  destruct U as [[e ->]|(n & p & q & f & ->)]; cbn [rbind]; [eauto|]. cbn. eauto.
Qed.

(* "A redirect leads to the server that it names": not if it's a relative reference, as RFC 7231
   allows in Location, for example /new.  connect() fails. *)
Theorem C73_relative_redirect_refuted : forall ue w uri args before a after rest,
  fst (await_connect ue w uri args) = before ++ [a] ++ after -> w (before ++ [a]) = Redirects (s "/" ++ rest) ->
  after = [] /\ exists e, snd (await_connect ue w uri args) = Failed e.
Proof.
  intros ue w uri args before a after rest. unfold await_connect. destruct (connect_init ue uri args) as [st|e]; [|destruct before; discriminate].
  intros H W. destruct (relative_invalid ue rest) as [e P].
  destruct (stops_at_invalid_uri ue w before a after _ e W P max_redirects_allowed st [] ltac:(cbn; lia) H) as [E1 E2]. eauto.
Qed.
Example C73_relative_applies :
  await_connect ex_uri_env (fun _ => Redirects (s "/new")) (s "ws://one.example/") no_args =
    ([{| at_uri := {| uri_secure := false; uri_host := s "one.example"; uri_port := 80%Z; uri_resource_name := s "/"; uri_user_info := None |};
         at_peer := PeerTcp (Some (s "one.example")) (Some 80%Z); at_tls := false |}], Failed (InvalidURI (s "/new"))).
Proof. vm_compute. reflexivity. Qed.

Print Assumptions C73_relative_redirect_refuted.
