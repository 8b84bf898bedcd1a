(* Facts about the parser of URIs. *)
From Verif Require Import Base.Prelude Base.PreludeFacts Base.PyInt Base.Utf8 Model.Client Model.Uri Spec.Uri.

Lemma partition_some c x y : ~ In c x -> partition c (x ++ c :: y) = (x, Some y).
Proof.
  induction x as [|d x IH]; intros N; cbn.
  - now rewrite N.eqb_refl.
  - destruct (N.eqb_spec d c) as [->|_]; [elim N; now left|]. rewrite IH; [reflexivity|]. intros H. apply N. now right.
Qed.
Lemma partition_none c x : ~ In c x -> partition c x = (x, None).
Proof.
  induction x as [|d x IH]; intros N; cbn; [reflexivity|].
  destruct (N.eqb_spec d c) as [->|_]; [elim N; now left|]. rewrite IH; [reflexivity|]. intros H. apply N. now right.
Qed.
Lemma partition_view c x : match partition c x with
  | (a, Some y) => x = a ++ c :: y /\ ~ In c a
  | (a, None) => a = x /\ ~ In c x
  end.
Proof.
  induction x as [|d x IH]; cbn; [auto|]. destruct (N.eqb_spec d c) as [->|Nd]; [auto|].
  destruct (partition c x) as [a [y|]]; destruct IH as [-> IH]; (split; [reflexivity|]); intros [H|H]; auto.
Qed.
Lemma rpartition_none c x : ~ In c x -> rpartition c x = None.
Proof.
  induction x as [|d x IH]; intros N; cbn; [reflexivity|]. rewrite IH by (intros H; apply N; now right).
  destruct (N.eqb_spec d c) as [->|_]; [elim N; now left|reflexivity].
Qed.
Lemma rpartition_some c x y : ~ In c y -> rpartition c (x ++ c :: y) = Some (x, y).
Proof.
  intros N. induction x as [|d x IH]; cbn.
  - rewrite rpartition_none by exact N. now rewrite N.eqb_refl.
  - now rewrite IH.
Qed.
Lemma rpartition_view c x : match rpartition c x with
  | Some (a, y) => x = a ++ c :: y /\ ~ In c y
  | None => ~ In c x
  end.
Proof.
  induction x as [|d x IH]; cbn; [auto|]. destruct (rpartition c x) as [[a y]|]; [destruct IH as [-> IH]; auto|].
  destruct (N.eqb_spec d c) as [->|Nd]; [auto|]. now intros [H|H].
Qed.
Definition delim (c : N) : Prop := c = 47%N \/ c = 63%N \/ c = 35%N.
Lemma is_delim c : ((c =? 47) || (c =? 63) || (c =? 35))%N = true <-> delim c.
Proof. unfold delim. rewrite !Bool.orb_true_iff, !N.eqb_eq. tauto. Qed.
Lemma split_netloc_app x y : Forall (fun c => ~ delim c) x -> (y = [] \/ exists c r, y = c :: r /\ delim c) -> split_netloc (x ++ y) = (x, y).
Proof.
  intros F Hy. induction F as [|c x Hc F IH]; cbn.
  - destruct Hy as [->|(c & r & -> & D)]; [reflexivity|]. cbn. apply is_delim in D. now rewrite D.
  - destruct ((c =? 47) || (c =? 63) || (c =? 35))%N eqn:Q; [elim Hc; now apply is_delim|]. now rewrite IH.
Qed.
Lemma split_netloc_view x : forall a y, split_netloc x = (a, y) -> x = a ++ y /\ Forall (fun c => ~ delim c) a /\ (y = [] \/ exists c r, y = c :: r /\ delim c).
Proof.
  induction x as [|c x IH]; intros a y; cbn.
  - intros H. apply pair_equal_spec in H as [<- <-]. auto.
  - destruct ((c =? 47) || (c =? 63) || (c =? 35))%N eqn:Q.
    + intros H. apply pair_equal_spec in H as [<- <-]. split; [reflexivity|]. split; [constructor|]. right. exists c, x. split; [reflexivity|now apply is_delim].
    + destruct (split_netloc x) as [a' y'] eqn:Sx. intros H. apply pair_equal_spec in H as [<- <-]. destruct (IH a' y' eq_refl) as (-> & F & Hy).
      split; [reflexivity|]. split; [|exact Hy]. constructor; [|exact F]. intros D. apply is_delim in D. congruence.
Qed.
Lemma clean_id x : Forall (fun c => 32 < c)%N x -> clean x = x.
Proof.
  intros F. unfold clean. assert (L : lstrip_control x = x).
  { destruct F as [|c x Hc F]; [reflexivity|]. cbn. replace (c <=? 32)%N with false by lia. reflexivity. }
  rewrite L. clear L. induction F as [|c x Hc F IH]; [reflexivity|]. cbn.
  replace (negb ((c =? 9) || (c =? 10) || (c =? 13)))%N with true by lia. now rewrite IH.
Qed.

(* ---- characters ---- *)
Lemma in_s_lt (x : str) (P : N -> Prop) : Forall P x -> forall c, In c x -> P c.
Proof. intros F. now apply Forall_forall. Qed.
Ltac chars := repeat match goal with
  | H : In _ (s _) |- _ => vm_compute in H; repeat (destruct H as [H|H]; [subst; lia|]); now elim H
  | H : _ \/ _ |- _ => destruct H
  end; try lia.
Lemma name_char_facts c : name_char c -> (32 < c < 127 /\ c <> 35 /\ c <> 37 /\ c <> 47 /\ c <> 58 /\ c <> 63 /\ c <> 64 /\ c <> 91 /\ c <> 93)%N.
Proof. unfold name_char, unreserved, sub_delim, alpha, digit. intros H. chars. Qed.
Lemma user_char_facts c : user_char c -> (32 < c < 127 /\ c <> 35 /\ c <> 47 /\ c <> 58 /\ c <> 63 /\ c <> 64 /\ c <> 91 /\ c <> 93)%N.
Proof. intros [H|H]; [apply name_char_facts in H; lia|lia]. Qed.
Lemma password_char_facts c : password_char c -> (32 < c < 127 /\ c <> 35 /\ c <> 47 /\ c <> 63 /\ c <> 64 /\ c <> 91 /\ c <> 93)%N.
Proof. intros [H|H]; [apply user_char_facts in H; lia|lia]. Qed.
Lemma path_char_facts c : path_char c -> (32 < c < 127 /\ c <> 35 /\ c <> 63 /\ c <> 91 /\ c <> 93)%N.
Proof. intros [H|H]; [apply user_char_facts in H; lia|chars]. Qed.
Lemma query_char_facts c : query_char c -> (32 < c < 127 /\ c <> 35 /\ c <> 91 /\ c <> 93)%N.
Proof. intros [H|H]; [apply path_char_facts in H; lia|lia]. Qed.

(* ---- numbers ---- *)
Lemma int_of_digits_snoc x c : int_of_digits (x ++ [c]) = (10 * int_of_digits x + (Z.of_N c - 48))%Z.
Proof. unfold int_of_digits. now rewrite fold_left_app. Qed.
Lemma digits_value_iff x n : digits_value x n <-> Forall digit x /\ n = int_of_digits x.
Proof.
  split.
  - induction 1 as [|x c n H [IH1 IH2] D]; [split; [constructor|reflexivity]|]. split.
    + apply Forall_app. split; [exact IH1|]. constructor; [exact D|constructor].
    + now rewrite int_of_digits_snoc, <- IH2.
  - intros [F ->]. induction x as [|c x IH] using rev_ind; [constructor|]. apply Forall_app in F as [F D]. rewrite int_of_digits_snoc.
    constructor; [now apply IH|]. now inversion D.
Qed.
Lemma digits_bool x : Forall digit x -> forallb is_digit x = true.
Proof. intros F. apply forallb_forall. intros c H. apply (proj1 (Forall_forall _ _) F) in H. unfold digit in H. unfold is_digit. lia. Qed.
Lemma int_of_digits_pos x : Forall digit x -> (0 <= int_of_digits x)%Z.
Proof.
  induction x as [|c x IH] using rev_ind; intros F; [reflexivity|]. apply Forall_app in F as [F D]. inversion D as [|? ? Dc]. subst. unfold digit in Dc.
  rewrite int_of_digits_snoc. specialize (IH F). lia.
Qed.

Lemma notin (P : N -> Prop) c x : Forall P x -> ~ P c -> ~ In c x.
Proof. intros F N H. apply N. now apply (proj1 (Forall_forall _ _) F). Qed.
Lemma ascii_bool x : Forall (fun c => c < 128)%N x -> is_ascii x = true.
Proof. intros F. apply forallb_forall. intros c H. apply (proj1 (Forall_forall _ _) F) in H. lia. Qed.

(* ---- the scheme ---- *)
Lemma scheme_chars x y : lower x = y -> Forall (fun c => 97 <= c <= 122)%N y -> Forall alpha x.
Proof.
  intros <-. unfold lower. rewrite Forall_map. apply Forall_impl. intros c. unfold lower_char, alpha.
  destruct ((65 <=? c) && (c <=? 90))%N eqn:Q; lia.
Qed.
Lemma alpha_bool c : alpha c -> is_alpha c = true.
Proof. unfold alpha, is_alpha. lia. Qed.
Lemma split_scheme_ok sc rest : sc <> [] -> Forall alpha sc -> split_scheme (sc ++ s ":" ++ rest) = (lower sc, rest).
Proof.
  intros Ne F. unfold split_scheme. change (s ":" ++ rest) with (58%N :: rest).
  rewrite partition_some by (apply (notin _ _ _ F); unfold alpha; lia).
  destruct F as [|c sc Hc F]; [contradiction|]. rewrite (alpha_bool c Hc). cbn [andb forallb].
  assert (A : is_scheme_char c = true) by (unfold is_scheme_char; now rewrite (alpha_bool c Hc)). rewrite A. cbn [andb].
  replace (forallb is_scheme_char sc) with true; [reflexivity|]. symmetry. apply forallb_forall. intros d H. apply (proj1 (Forall_forall _ _) F) in H.
  unfold is_scheme_char. now rewrite (alpha_bool d H).
Qed.

(* ---- the authority ---- *)
Section Authority.
Context (ue : uri_env) (u : components).
Hypothesis V : valid_components (ue_bracketed ue) u.

Definition host_port : str := host_text (co_host u) ++ opt (co_port u) (fun p => s ":" ++ p).
Definition authority : str := opt (co_user u) (fun up => fst up ++ s ":" ++ snd up ++ s "@") ++ host_port.

Definition host_char c := name_char c \/ c = 58%N \/ c = 91%N \/ c = 93%N.
Lemma port_digits p : co_port u = Some p -> Forall digit p /\ (int_of_digits p <= 65535)%Z.
Proof. intros H. destruct (vc_port _ _ V p H) as (n & D & L). apply digits_value_iff in D as [D ->]. auto. Qed.
Lemma port_text_chars : Forall (fun c => digit c \/ c = 58%N) (opt (co_port u) (fun p => s ":" ++ p)).
Proof.
  destruct (co_port u) as [p|] eqn:Hp; [|constructor]. destruct (port_digits p Hp) as [F _]. constructor; [now right|].
  eapply Forall_impl; [|exact F]. cbn. auto.
Qed.
Lemma host_port_chars : Forall host_char host_port.
Proof.
  unfold host_port. apply Forall_app. split.
  - assert (W := vc_host _ _ V). destruct (co_host u) as [x|x]; cbn [host_text].
    + eapply Forall_impl; [|apply W]. unfold host_char. auto.
    + destruct W as (_ & _ & F). constructor; [unfold host_char; right; right; left; reflexivity|]. apply Forall_app. split; [|constructor; [unfold host_char; right; right; right; reflexivity|constructor]].
      eapply Forall_impl; [|exact F]. unfold host_char. tauto.
  - eapply Forall_impl; [|exact port_text_chars]. intros c [D| ->]; [left; left; right; left; exact D|]. unfold host_char. auto.
Qed.
Lemma host_char_facts c : host_char c -> (32 < c < 127 /\ c <> 35 /\ c <> 37 /\ c <> 47 /\ c <> 63 /\ c <> 64)%N.
Proof. intros [H|H]; [apply name_char_facts in H; lia|lia]. Qed.
Lemma authority_chars : Forall (fun c => 32 < c < 127 /\ c <> 35 /\ c <> 47 /\ c <> 63)%N authority.
Proof.
  unfold authority. apply Forall_app. split.
  - destruct (co_user u) as [[name pw]|] eqn:Hu; [|constructor]. destruct (vc_user _ _ V name pw Hu) as [Fn Fp]. cbn [opt fst snd].
    apply Forall_app. split; [eapply Forall_impl; [|exact Fn]; intros c H; apply user_char_facts in H; lia|]. change (s ":") with [58%N]. change (s "@") with [64%N]. constructor; [lia|].
    apply Forall_app. split; [eapply Forall_impl; [|exact Fp]; intros c H; apply password_char_facts in H; lia|]. constructor; [lia|constructor].
  - eapply Forall_impl; [|exact host_port_chars]. intros c H. apply host_char_facts in H. lia.
Qed.
Lemma host_port_at : ~ In 64%N host_port.
Proof. eapply notin; [exact host_port_chars|]. intros H. apply host_char_facts in H. lia. Qed.
Lemma rpartition_authority : rpartition 64 authority = option_map (fun up => (fst up ++ s ":" ++ snd up, host_port)) (co_user u).
Proof.
  unfold authority. destruct (co_user u) as [[name pw]|]; cbn [opt option_map fst snd].
  - replace ((name ++ s ":" ++ pw ++ s "@") ++ host_port) with ((name ++ s ":" ++ pw) ++ 64%N :: host_port).
    2:{ rewrite <- !app_assoc. reflexivity. } apply rpartition_some, host_port_at.
  - apply rpartition_none, host_port_at.
Qed.
Lemma userinfo_authority : userinfo authority = option_map (fun up => (fst up, Some (snd up))) (co_user u).
Proof.
  unfold userinfo. rewrite rpartition_authority. destruct (co_user u) as [[name pw]|] eqn:Hu; [|reflexivity]. cbn [option_map fst snd].
  f_equal. apply (partition_some 58). destruct (vc_user _ _ V name pw Hu) as [Fn _]. eapply notin; [exact Fn|]. intros H. apply user_char_facts in H. lia.
Qed.
Definition bare_name : str := match co_host u with HName x => x | HBrackets x => x end.
Lemma hostinfo_authority : hostinfo authority = (bare_name, match co_port u with Some [] => None | p => p end).
Proof.
  unfold hostinfo.
  assert (I : match rpartition 64 authority with Some (_, x) => x | None => authority end = host_port).
  { rewrite rpartition_authority. unfold authority. destruct (co_user u); reflexivity. }
  rewrite I. clear I.
  unfold host_port, bare_name. assert (W := vc_host _ _ V). destruct (co_host u) as [x|x]; cbn [host_text].
  - destruct W as [_ F]. rewrite partition_none.
    2:{ rewrite in_app_iff. intros [H|H]; revert H; [eapply notin; [exact F|]; intros H; apply name_char_facts in H; lia|].
        eapply notin; [exact port_text_chars|]. unfold digit. lia. }
    destruct (co_port u) as [p|]; cbn [opt].
    + change (s ":" ++ p) with (58%N :: p). rewrite partition_some; [now destruct p|]. eapply notin; [exact F|]. intros H. apply name_char_facts in H. lia.
    + rewrite app_nil_r, partition_none; [reflexivity|]. eapply notin; [exact F|]. intros H. apply name_char_facts in H. lia.
  - destruct W as (_ & _ & F). change ((s "[" ++ x ++ s "]") ++ opt (co_port u) (fun p => s ":" ++ p)) with ([] ++ 91%N :: ((x ++ [93%N]) ++ opt (co_port u) (fun p => s ":" ++ p))).
    rewrite partition_some by intros []. rewrite <- app_assoc. change ([93%N] ++ ?y) with (93%N :: y).
    rewrite partition_some. 2:{ eapply notin; [exact F|]. intros [H|H]; [apply name_char_facts in H; lia|lia]. }
    destruct (co_port u) as [p|]; cbn [opt].
    + change (s ":" ++ p) with ([] ++ 58%N :: p). rewrite partition_some by intros []. now destruct p.
    + reflexivity.
Qed.
Lemma bare_name_chars : Forall (fun c => name_char c \/ c = 58%N) bare_name /\ bare_name <> [].
Proof.
  unfold bare_name. assert (W := vc_host _ _ V). destruct (co_host u) as [x|x].
  - destruct W as [Ne F]. split; [|exact Ne]. eapply Forall_impl; [|exact F]. auto.
  - destruct W as (Ne & _ & F). auto.
Qed.
Lemma hostname_authority : (forall x, Forall (fun c => c < 128)%N x -> ue_lower ue x = lower x) ->
  hostname ue authority = Some (bare_host (co_host u)).
Proof.
  intros lower_ascii. unfold hostname. rewrite hostinfo_authority. cbn [fst]. destruct bare_name_chars as [F Ne].
  assert (L : lower bare_name = bare_host (co_host u)) by (unfold bare_name; now destruct (co_host u)).
  rewrite <- L. clear L. destruct bare_name as [|c x] eqn:B; [contradiction|]. rewrite <- B in *.
  rewrite partition_none. 2:{ eapply notin; [exact F|]. intros [H|H]; [apply name_char_facts in H; lia|lia]. }
  f_equal. apply lower_ascii. eapply Forall_impl; [|exact F]. intros d [H|H]; [apply name_char_facts in H; lia|lia].
Qed.
Lemma port_authority : port authority = Ok (match co_port u with None | Some [] => None | Some p => Some (int_of_digits p) end).
Proof.
  unfold port. rewrite hostinfo_authority. cbn [snd]. destruct (co_port u) as [p|] eqn:Hp; [|reflexivity]. destruct p as [|c p]; [reflexivity|].
  destruct (port_digits _ Hp) as [F L]. rewrite (digits_bool _ F). replace (int_of_digits (c :: p) <=? 65535)%Z with true by lia. reflexivity.
Qed.
Lemma contains_iff c x : contains c x = true <-> In c x.
Proof. unfold contains. rewrite existsb_exists. split; [intros (d & H & E); apply N.eqb_eq in E; now subst|]. intros H. exists c. split; [exact H|apply N.eqb_refl]. Qed.
Lemma contains_false c x : ~ In c x -> contains c x = false.
Proof. intros N. destruct (contains c x) eqn:Q; [|reflexivity]. apply contains_iff in Q. contradiction. Qed.
Lemma user_text_chars : Forall password_char (opt (co_user u) (fun up => fst up ++ s ":" ++ snd up)).
Proof.
  destruct (co_user u) as [[name pw]|] eqn:Hu; [|constructor]. destruct (vc_user _ _ V name pw Hu) as [Fn Fp]. cbn [opt fst snd]. apply Forall_app. split.
  - eapply Forall_impl; [|exact Fn]. intros c H. now left.
  - constructor; [now right|exact Fp].
Qed.
Lemma brackets_authority : check_brackets ue authority = true.
Proof.
  unfold check_brackets, authority, host_port. set (ut := opt (co_user u) _).
  assert (U1 : ~ In 91%N ut /\ ~ In 93%N ut).
  { assert (F := user_text_chars). subst ut. destruct (co_user u) as [[name pw]|]; [|split; intros []]. cbn [opt fst snd] in F |- *.
    replace (name ++ s ":" ++ pw ++ s "@") with ((name ++ s ":" ++ pw) ++ s "@") by now rewrite <- !app_assoc.
    split; rewrite in_app_iff; (intros [H|H]; [revert H; eapply notin; [exact F|]; intros H; apply password_char_facts in H; lia|]); vm_compute in H; destruct H as [H|[]]; discriminate. }
  assert (P1 : ~ In 91%N (opt (co_port u) (fun p => s ":" ++ p)) /\ ~ In 93%N (opt (co_port u) (fun p => s ":" ++ p))).
  { split; (eapply notin; [exact port_text_chars|]); unfold digit; lia. }
  set (pt := opt (co_port u) _) in *. clearbody ut pt. destruct U1 as [U1 U2], P1 as [P1 P2].
  assert (W := vc_host _ _ V). destruct (co_host u) as [x|x]; cbn [host_text].
  - destruct W as [_ F]. assert (X : forall c, (c = 91 \/ c = 93)%N -> ~ In c x). { intros c Hc. eapply notin; [exact F|]. intros H. apply name_char_facts in H. lia. }
    rewrite !contains_false; [reflexivity| |]; rewrite !in_app_iff; intros [H|[H|H]]; try contradiction; revert H; apply X; auto.
  - destruct W as (_ & I & F). assert (X : ~ In 93%N x). { eapply notin; [exact F|]. intros [H|H]; [apply name_char_facts in H; lia|lia]. }
    replace (contains 91 _) with true. 2:{ symmetry. apply contains_iff. rewrite !in_app_iff. right. left. left. now left. }
    replace (contains 93 _) with true. 2:{ symmetry. apply contains_iff. rewrite !in_app_iff. right. left. right. right. now left. }
    cbn [andb negb orb]. change (s "[") with [91%N]. replace (ut ++ ([91%N] ++ x ++ s "]") ++ pt) with (ut ++ 91%N :: (x ++ 93%N :: pt)).
    2:{ change (s "]") with [93%N]. cbn [app]. now rewrite <- app_assoc. }
    rewrite partition_some by exact U1. cbn [snd]. rewrite partition_some by exact X. exact I.
Qed.
Lemma netloc_authority : check_netloc ue authority = true.
Proof.
  unfold check_netloc. destruct authority as [|c x] eqn:A; [reflexivity|]. rewrite <- A. rewrite ascii_bool; [reflexivity|].
  eapply Forall_impl; [|exact authority_chars]. cbn. lia.
Qed.

Lemma scheme_facts : co_scheme u <> [] /\ Forall alpha (co_scheme u) /\
  (str_eqb (lower (co_scheme u)) (s "ws") || str_eqb (lower (co_scheme u)) (s "wss") = true).
Proof.
  destruct (vc_scheme _ _ V) as [H|H]; unfold insensitive in H.
  - split; [intros E; rewrite E in H; discriminate|]. split; [eapply scheme_chars; [exact H|repeat constructor; discriminate]|]. rewrite H. reflexivity.
  - split; [intros E; rewrite E in H; discriminate|]. split; [eapply scheme_chars; [exact H|repeat constructor; discriminate]|]. rewrite H. reflexivity.
Qed.

(* the URI, followed by a fragment *)
Definition path_query : str := co_path u ++ opt (co_query u) (fun q => s "?" ++ q).
Lemma uri_text_eq : uri_text u = co_scheme u ++ s ":" ++ s "//" ++ authority ++ path_query.
Proof. unfold uri_text, authority, host_port, path_query. rewrite <- !app_assoc. reflexivity. Qed.
Lemma path_query_chars : Forall query_char path_query.
Proof.
  unfold path_query. apply Forall_app. split.
  - eapply Forall_impl; [|apply (vc_path _ _ V)]. intros c H. now left.
  - destruct (co_query u) as [q|] eqn:Hq; [|constructor]. constructor; [now right|]. now apply (vc_query _ _ V).
Qed.
Lemma uri_chars : Forall (fun c => 32 < c < 127 /\ c <> 35)%N (uri_text u).
Proof.
  rewrite uri_text_eq. destruct scheme_facts as (_ & F & _). apply Forall_app. split; [eapply Forall_impl; [|exact F]; unfold alpha; intros; lia|].
  change (s ":") with [58%N]. change (s "//") with [47; 47]%N. constructor; [lia|]. do 2 (constructor; [lia|]). apply Forall_app. split.
  - eapply Forall_impl; [|exact authority_chars]. cbn. intros; lia.
  - eapply Forall_impl; [|exact path_query_chars]. intros c H. apply query_char_facts in H. lia.
Qed.
Lemma urlsplit_uri frag : (frag = [] \/ exists f, frag = s "#" ++ f) -> clean (uri_text u ++ frag) = uri_text u ++ frag ->
  urlsplit ue (uri_text u ++ frag) =
  Ok (lower (co_scheme u), authority, co_path u, match co_query u with Some q => q | None => [] end, match frag with [] => [] | _ :: f => f end).
Proof.
  intros Hf Hc. unfold urlsplit. rewrite Hc, uri_text_eq. destruct scheme_facts as (Ne & F & _).
  replace ((co_scheme u ++ s ":" ++ s "//" ++ authority ++ path_query) ++ frag) with (co_scheme u ++ s ":" ++ (47 :: 47 :: (authority ++ (path_query ++ frag)))%N).
  2:{ rewrite <- !app_assoc. reflexivity. }
  rewrite (split_scheme_ok _ _ Ne F). rewrite split_netloc_app.
  2:{ eapply Forall_impl; [|exact authority_chars]. unfold delim. intros c H. lia. }
  2:{ unfold path_query. destruct (proj2 (vc_path _ _ V)) as [->|[r ->]].
      - destruct (co_query u) as [q|]; cbn [opt app]; [right; eexists _, _; split; [reflexivity|]; unfold delim; vm_compute; auto|].
        destruct Hf as [->|[f ->]]; [now left|]. right; eexists _, _; split; [reflexivity|]; unfold delim; vm_compute; auto.
      - right. eexists _, _. split; [reflexivity|]. unfold delim; vm_compute; auto. }
  rewrite brackets_authority. cbn [rbind]. rewrite netloc_authority.
  assert (NF : ~ In 35%N path_query). { eapply notin; [exact path_query_chars|]. intros H. apply query_char_facts in H. lia. }
  assert (PF : (match partition 35 (path_query ++ frag) with (u0, Some f) => (u0, f) | (u0, None) => (u0, []) end) = (path_query, match frag with [] => [] | _ :: f => f end)).
  { destruct Hf as [->|[f ->]]; [rewrite app_nil_r, partition_none by exact NF; reflexivity|]. change (s "#" ++ f) with (35%N :: f). now rewrite partition_some. }
  rewrite PF.
  assert (NQ : ~ In 63%N (co_path u)). { eapply notin; [apply (vc_path _ _ V)|]. intros H. apply path_char_facts in H. lia. }
  assert (PQ : (match partition 63 path_query with (u0, Some f) => (u0, f) | (u0, None) => (u0, []) end) = (co_path u, match co_query u with Some q => q | None => [] end)).
  { unfold path_query. destruct (co_query u) as [q|]; cbn [opt]; [change (s "?" ++ q) with (63%N :: q); now rewrite partition_some|]. rewrite app_nil_r, partition_none by exact NQ. reflexivity. }
  rewrite PQ. reflexivity.
Qed.
End Authority.

(* ---- what is accepted ---- *)
Lemma split_scheme_view x sc rest : split_scheme x = (sc, rest) ->
  (sc = [] /\ rest = x) \/ exists sch, x = sch ++ 58%N :: rest /\ sc = lower sch /\ ~ In 58%N sch.
Proof.
  unfold split_scheme. pose proof (partition_view 58 x) as P. destruct (partition 58 x) as [[|c sch] [r|]].
  1,2,4: intros H; apply pair_equal_spec in H as [<- <-]; now left.
  destruct P as [P Np]. destruct (is_alpha c && forallb is_scheme_char (c :: sch)); intros H; apply pair_equal_spec in H as [<- <-].
  - right. exists (c :: sch). auto.
  - now left.
Qed.
Definition rest_of (path : str) (q f : option str) : str := path ++ opt q (fun q => 63%N :: q) ++ opt f (fun f => 35%N :: f).
Lemma authority_view ue url nl u :
  (match url with
   | 47%N :: 47%N :: url' => let '(netloc, rest) := split_netloc url' in if check_brackets ue netloc then Ok (netloc, rest) else Raise ValueError
   | _ => Ok ([], url)
   end) = Ok (nl, u) ->
  (nl = [] /\ url = u) \/ (url = 47%N :: 47%N :: nl ++ u /\ Forall (fun c => ~ delim c) nl /\ (u = [] \/ exists c r, u = c :: r /\ delim c)).
Proof.
  assert (D : (exists url', url = 47%N :: 47%N :: url') \/ (match url with
   | 47%N :: 47%N :: url' => let '(netloc, rest) := split_netloc url' in if check_brackets ue netloc then Ok (netloc, rest) else Raise ValueError
   | _ => Ok ([], url)
   end) = Ok ([], url)).
  { destruct url as [|c1 url]; [now right|]. destruct (N.eqb_spec c1 47) as [->|N1].
    - destruct url as [|c2 url]; [now right|]. destruct (N.eqb_spec c2 47) as [->|N2]; [left; eauto|right].
      destruct c2 as [|p]; [reflexivity|]. repeat (destruct p as [p|p|]; try reflexivity). contradiction.
    - right. destruct c1 as [|p]; [reflexivity|]. repeat (destruct p as [p|p|]; try reflexivity). contradiction. }
  destruct D as [[url' ->]|D].
  - destruct (split_netloc url') as [a y] eqn:Sn. destruct (check_brackets ue a); [|discriminate]. intros H. apply ok_inj, pair_equal_spec in H as [<- <-].
    right. apply split_netloc_view in Sn as (-> & F & D). auto.
  - rewrite D. intros H. apply ok_inj, pair_equal_spec in H as [<- <-]. now left.
Qed.
Lemma urlsplit_view ue x scheme netloc path query fragment : urlsplit ue x = Ok (scheme, netloc, path, query, fragment) -> scheme <> [] ->
  exists sch q f, scheme = lower sch /\ ~ In 58%N sch /\
    ~ In 35%N path /\ ~ In 63%N path /\ (forall q', q = Some q' -> ~ In 35%N q') /\
    query = match q with Some q => q | None => [] end /\ fragment = match f with Some f => f | None => [] end /\
    ((netloc = [] /\ clean x = sch ++ 58%N :: rest_of path q f) \/
     (clean x = sch ++ s "://" ++ netloc ++ rest_of path q f /\ Forall (fun c => ~ delim c) netloc /\
      (rest_of path q f = [] \/ exists c r, rest_of path q f = c :: r /\ delim c))).
Proof.
  unfold urlsplit. destruct (split_scheme (clean x)) as [sc url] eqn:Ss. intros H Ne.
  assert (N : exists nl u, (netloc = nl) /\ (if check_netloc ue nl then Ok (sc, nl, fst (partition 63 (fst (partition 35 u))),
      match snd (partition 63 (fst (partition 35 u))) with Some q => q | None => [] end,
      match snd (partition 35 u) with Some q => q | None => [] end) else Raise ValueError) = Ok (scheme, netloc, path, query, fragment) /\
      ((nl = [] /\ url = u) \/ (url = 47%N :: 47%N :: nl ++ u /\ Forall (fun c => ~ delim c) nl /\ (u = [] \/ exists c r, u = c :: r /\ delim c)))).
  { assert (G : forall nl u, (let '(u1, f) := match partition 35 u with (u, Some f) => (u, f) | (u, None) => (u, []) end in
       let '(u2, q) := match partition 63 u1 with (u, Some q) => (u, q) | (u, None) => (u, []) end in
       if check_netloc ue nl then Ok (sc, nl, u2, q, f) else Raise ValueError) = Ok (scheme, netloc, path, query, fragment) ->
       netloc = nl /\ (if check_netloc ue nl then Ok (sc, nl, fst (partition 63 (fst (partition 35 u))),
      match snd (partition 63 (fst (partition 35 u))) with Some q => q | None => [] end,
      match snd (partition 35 u) with Some q => q | None => [] end) else Raise ValueError) = Ok (scheme, netloc, path, query, fragment)).
    { intros nl u. destruct (partition 35 u) as [u1 [f|]]; cbn [fst snd]; destruct (partition 63 u1) as [u2 [q|]]; cbn [fst snd];
        destruct (check_netloc ue nl); intros G; try discriminate G; (split; [|exact G]); apply ok_inj in G; repeat (apply pair_equal_spec in G as [G ?]); congruence. }
    match type of H with context [rbind ?m _] => destruct m as [[nl u]|] eqn:Eu end; cbn [rbind] in H; [|discriminate].
    exists nl, u. destruct (G nl u H) as [-> G']. split; [reflexivity|]. split; [exact G'|]. exact (authority_view ue url nl u Eu). }
  clear H. destruct N as (nl & u & -> & H & Hu). destruct (check_netloc ue nl); [|discriminate]. apply ok_inj in H.
  apply pair_equal_spec in H as [H Hf]. apply pair_equal_spec in H as [H Hq]. apply pair_equal_spec in H as [H Hp]. apply pair_equal_spec in H as [Hs _].
  apply split_scheme_view in Ss as [[-> _]|(sch & Hx & -> & Ns)]; [congruence|].
  pose proof (partition_view 35 u) as P35. destruct (partition 35 u) as [u1 f]. cbn [fst snd] in *.
  pose proof (partition_view 63 u1) as P63. destruct (partition 63 u1) as [u2 q]. cbn [fst snd] in *. subst u2.
  assert (R : u = rest_of path q f /\ ~ In 35%N path /\ ~ In 63%N path /\ (forall q', q = Some q' -> ~ In 35%N q')).
  { unfold rest_of. destruct f as [f|], q as [q|]; cbn [opt]; destruct P35 as [E1 N1], P63 as [E2 N2].
    - subst u u1. rewrite in_app_iff in N1. split; [now rewrite <- app_assoc|]. split; [tauto|]. split; [exact N2|]. intros q' Eq. injection Eq as <-. intros I. apply N1. right. now right.
    - subst u u1. split; [reflexivity|]. split; [exact N1|]. split; [exact N2|discriminate].
    - subst u1 u. rewrite in_app_iff in N1. split; [now rewrite app_nil_r|]. split; [tauto|]. split; [exact N2|]. intros q' Eq. injection Eq as <-. intros I. apply N1. right. now right.
    - subst u1. subst path. split; [now rewrite !app_nil_r|]. split; [exact N1|]. split; [exact N2|discriminate]. }
  destruct R as (Ru & R1 & R2 & R3). exists sch, q, f. split; [now symmetry|]. split; [exact Ns|]. split; [exact R1|]. split; [exact R2|]. split; [exact R3|].
  split; [now symmetry|]. split; [now symmetry|]. rewrite <- Ru. destruct Hu as [(-> & Hu)|(Hu & F & D)]; [left|right].
  - split; [reflexivity|]. now rewrite Hx, Hu.
  - split; [|auto]. rewrite Hx, Hu. reflexivity.
Qed.
