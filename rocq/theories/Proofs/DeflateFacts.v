(* Facts about Model/PermessageDeflate.v: negotiation. *)
From Verif Require Import Base.Prelude Base.PreludeFacts Base.PyInt Model.Utils Model.Frames Model.Handshake Model.PermessageDeflate Spec.Messages Spec.Deflate.
Local Open Scope Z_scope.

Lemma range_cases (P : Z -> Prop) : P 8 -> P 9 -> P 10 -> P 11 -> P 12 -> P 13 -> P 14 -> P 15 ->
  forall n, 8 <= n <= 15 -> P n.
Proof.
  intros. assert (n = 8 \/ n = 9 \/ n = 10 \/ n = 11 \/ n = 12 \/ n = 13 \/ n = 14 \/ n = 15) as C by lia.
  repeat destruct C as [->|C]; subst; assumption.
Qed.
Lemma window_bits_str n : 8 <= n <= 15 -> window_bits (Some (str_of_Z n)) = Some n.
Proof. revert n. apply range_cases; reflexivity. Qed.
Lemma window_bits_view v n : window_bits v = Some n -> exists x, v = Some x /\ window x n.
Proof.
  destruct v as [v|]; [|discriminate]. unfold window_bits. destruct (existsb (str_eqb v) max_window_bits_values) eqn:Ex; [|discriminate].
  intros H. exists v. split; [reflexivity|]. apply existsb_exists in Ex as (w & I & Ew). apply str_eqb_eq in Ew. subst w.
  cbn in I. repeat destruct I as [<-|I]; try contradiction; apply some_inj in H; subst n; split; try lia; reflexivity.
Qed.
Lemma window_fun v n m : window v n -> window v m -> n = m.
Proof.
  intros [R ->] [R' H]. pose proof (window_bits_str n R) as A. rewrite H, (window_bits_str m R') in A. now apply some_inj in A.
Qed.

(* ---- _extract_parameters ---- *)

Definition flag_of (l : params) (name : str) (v : bool) : Prop := v = true <-> In (name, None) l.
Definition bits_of (l : params) (name : str) (o : option Z) : Prop :=
  forall n, o = Some n <-> 8 <= n <= 15 /\ In (name, Some (str_of_Z n)) l.
Definition n1 := s "server_no_context_takeover".
Definition n2 := s "client_no_context_takeover".
Definition n3 := s "server_max_window_bits".
Definition n4 := s "client_max_window_bits".

(* names already seen *)
Definition seen (t : settings4) (name : str) : Prop :=
  let '(snct, cnct, smwb, cmwb) := t in
  (name = n1 /\ snct = true) \/ (name = n2 /\ cnct = true) \/ (name = n3 /\ smwb <> None) \/ (name = n4 /\ cmwb <> None).

Definition entry (p : str * option str) (t t' : settings4) : Prop :=
  let '(a, b, c, d) := t in let '(a', b', c', d') := t' in
  (p = (n1, None) /\ a = false /\ a' = true /\ b' = b /\ c' = c /\ d' = d) \/
  (p = (n2, None) /\ b = false /\ a' = a /\ b' = true /\ c' = c /\ d' = d) \/
  (exists v n, p = (n3, Some v) /\ window v n /\ c = None /\ a' = a /\ b' = b /\ c' = Some n /\ d' = d) \/
  (exists v n, p = (n4, Some v) /\ window v n /\ d = None /\ a' = a /\ b' = b /\ c' = c /\ d' = Some (Bits n)) \/
  (p = (n4, None) /\ d = None /\ a' = a /\ b' = b /\ c' = c /\ d' = Some BTrue).

Lemma extract_step srv p l t :
  (exists t', extract_loop srv (p :: l) t = extract_loop srv l t' /\ entry p t t' /\ param_ok srv p /\ ~ seen t (fst p)) \/
  (exists e, extract_loop srv (p :: l) t = Raise e /\ is_negotiation_error e = true /\ ~ (param_ok srv p /\ ~ seen t (fst p))).
Proof.
  destruct p as [name value], t as [[[a b] c] d]. cbn [extract_loop].
  destruct (str_eqb name _) eqn:E1; [|destruct (str_eqb name (s "client_no_context_takeover")) eqn:E2;
    [|destruct (str_eqb name (s "server_max_window_bits")) eqn:E3; [|destruct (str_eqb name (s "client_max_window_bits")) eqn:E4]]].
  - apply str_eqb_eq in E1. subst name. destruct a.
    + right. eexists. split; [reflexivity|]. split; [reflexivity|]. intros [_ N]. apply N. left. auto.
    + destruct value as [v|]; cbn [present].
      * right. eexists. split; [reflexivity|]. split; [reflexivity|]. intros [[H|[H|[(x & n & H & _)|[(x & n & H & _)|[_ H]]]]] _]; discriminate H.
      * left. eexists. split; [reflexivity|]. split; [left; repeat split|]. split; [left; reflexivity|].
        intros [[_ H]|[[H _]|[[H _]|[H _]]]]; discriminate H.
  - apply str_eqb_eq in E2. subst name. destruct b.
    + right. eexists. split; [reflexivity|]. split; [reflexivity|]. intros [_ N]. apply N. right. left. auto.
    + destruct value as [v|]; cbn [present].
      * right. eexists. split; [reflexivity|]. split; [reflexivity|]. intros [[H|[H|[(x & n & H & _)|[(x & n & H & _)|[_ H]]]]] _]; discriminate H.
      * left. eexists. split; [reflexivity|]. split; [right; left; repeat split|]. split; [right; left; reflexivity|].
        intros [[H _]|[[_ H]|[[H _]|[H _]]]]; discriminate H.
  - apply str_eqb_eq in E3. subst name. destruct c as [m|]; cbn [present].
    + right. eexists. split; [reflexivity|]. split; [reflexivity|]. intros [_ N]. apply N. right. right. left. split; [reflexivity|discriminate].
    + destruct (window_bits value) as [n|] eqn:W.
      * apply window_bits_view in W as (x & -> & W). left. eexists. split; [reflexivity|].
        split; [right; right; left; exists x, n; repeat split; auto; apply W|]. split; [right; right; left; exists x, n; auto|].
        intros [[H _]|[[H _]|[[_ H]|[H _]]]]; try discriminate H. now apply H.
      * right. eexists. split; [reflexivity|]. split; [reflexivity|]. intros [[H|[H|[(x & n & H & Wd)|[(x & n & H & _)|[_ H]]]]] _]; try discriminate H.
        apply pair_equal_spec in H as [_ ->]. destruct Wd as [R ->]. rewrite window_bits_str in W by exact R. discriminate W.
  - apply str_eqb_eq in E4. subst name. destruct d as [m|]; cbn [present].
    + right. eexists. split; [reflexivity|]. split; [reflexivity|]. intros [_ N]. apply N. right. right. right. split; [reflexivity|discriminate].
    + assert (Ns : ~ seen (a, b, c, None) (fst (s "client_max_window_bits", value))).
      { intros [[H _]|[[H _]|[[H _]|[_ H]]]]; try discriminate H. now apply H. }
      destruct (srv && negb (present value))%bool eqn:Sv.
      * apply andb_true_iff in Sv as [-> Pv]. destruct value; [discriminate Pv|]. left. eexists. split; [reflexivity|].
        split; [right; right; right; right; repeat split|]. split; [right; right; right; right; auto|]. exact Ns.
      * destruct (window_bits value) as [n|] eqn:W.
        -- apply window_bits_view in W as (x & -> & W). left. eexists. split; [reflexivity|].
           split; [right; right; right; left; exists x, n; repeat split; auto; apply W|]. split; [right; right; right; left; exists x, n; auto|]. exact Ns.
        -- right. eexists. split; [reflexivity|]. split; [reflexivity|]. intros [[H|[H|[(x & n & H & Wd)|[(x & n & H & Wd)|[Hs H]]]]] _]; try discriminate H.
           ++ apply pair_equal_spec in H as [_ ->]. destruct Wd as [R ->]. rewrite window_bits_str in W by exact R. discriminate W.
           ++ apply pair_equal_spec in H as [_ ->]. rewrite Hs in Sv. discriminate Sv.
  - right. eexists. split; [reflexivity|]. split; [reflexivity|].
    intros [[H|[H|[(x & n & H & _)|[(x & n & H & _)|[_ H]]]]] _]; apply pair_equal_spec in H as [-> _]; rewrite str_eqb_refl in *; discriminate.
Qed.

Fixpoint entries (l : params) (t t' : settings4) : Prop :=
  match l with
  | [] => t' = t
  | p :: l' => exists t1, entry p t t1 /\ entries l' t1 t'
  end.
Lemma entry_seen p t t' : entry p t t' -> forall nm, seen t' nm <-> seen t nm \/ nm = fst p.
Proof.
  destruct p as [name value], t as [[[a b] c] d], t' as [[[a' b'] c'] d']. cbn [entry seen fst].
  intros [(H & E)|[(H & E)|[(v & n & H & _ & E)|[(v & n & H & _ & E)|(H & E)]]]] nm; apply pair_equal_spec in H as [-> _];
    decompose [and] E; subst; split; intros H'; decompose [or and] H'; subst; auto 10; try discriminate; try congruence;
    try (right; right; left; split; [reflexivity|discriminate]); try (right; right; right; split; [reflexivity|discriminate]).
Qed.
Lemma extract_view srv l : forall t,
  match extract_loop srv l t with
  | Ok t' => Forall (param_ok srv) l /\ NoDup (map fst l) /\ (forall nm, In nm (map fst l) -> ~ seen t nm) /\ entries l t t'
  | Raise e => is_negotiation_error e = true /\
      ~ (Forall (param_ok srv) l /\ NoDup (map fst l) /\ forall nm, In nm (map fst l) -> ~ seen t nm)
  end.
Proof.
  induction l as [|p l IH]; intros t.
  - cbn. split; [constructor|]. split; [constructor|]. auto.
  - destruct (extract_step srv p l t) as [(t1 & -> & En & Ok1 & Ns)|(e & -> & Ne & N)].
    + specialize (IH t1). pose proof (entry_seen _ _ _ En) as Sn. destruct (extract_loop srv l t1) as [t'|e].
      * destruct IH as (F & Nd & D & Es). split; [now constructor|]. split; [|split].
        -- cbn. constructor; [|exact Nd]. intros I0. apply (D _ I0). apply Sn. now right.
        -- intros nm [<-|I0]; [exact Ns|]. intros S0. apply (D _ I0). apply Sn. now left.
        -- now exists t1.
      * destruct IH as (Ne & N). split; [exact Ne|]. intros (F & Nd & D). apply N. cbn in Nd. inversion F; subst. inversion Nd; subst.
        split; [assumption|]. split; [assumption|]. intros nm I0 S0. apply Sn in S0 as [S0| ->]; [|contradiction]. now apply (D nm); [right|].
    + split; [exact Ne|]. intros (F & Nd & D). apply N. inversion F; subst. split; [assumption|]. apply D. now left.
Qed.

Definition t0 : settings4 := (false, false, None, None).
Lemma seen_t0 nm : ~ seen t0 nm.
Proof. intros [[_ H]|[[_ H]|[[_ H]|[_ H]]]]; try discriminate H; now apply H. Qed.
Lemma extract_iff srv l :
  match extract_parameters l srv with
  | Ok t => params_ok srv l /\ entries l t0 t
  | Raise e => is_negotiation_error e = true /\ ~ params_ok srv l
  end.
Proof.
  unfold extract_parameters. pose proof (extract_view srv l t0) as V. fold t0. destruct (extract_loop srv l t0) as [t|e].
  - destruct V as (F & Nd & _ & Es). split; [now split|exact Es].
  - destruct V as (Ne & N). split; [exact Ne|]. intros [F Nd]. apply N. split; [exact F|]. split; [exact Nd|]. intros nm _. apply seen_t0.
Qed.

(* monotone: a flag that is set remains, a value that is set remains *)
Definition keeps (t t' : settings4) : Prop :=
  let '(a, b, c, d) := t in let '(a', b', c', d') := t' in
  (a = true -> a' = true) /\ (b = true -> b' = true) /\ (c <> None -> c' = c) /\ (d <> None -> d' = d).
Lemma keeps_trans t1 t2 t3 : keeps t1 t2 -> keeps t2 t3 -> keeps t1 t3.
Proof.
  destruct t1 as [[[a b] c] d], t2 as [[[a' b'] c'] d'], t3 as [[[a2 b2] c2] d2]. cbn. intros (A & B & C & D) (A' & B' & C' & D').
  split; [auto|]. split; [auto|]. split; [intros H; rewrite <- (C H); apply C'; now rewrite (C H)|intros H; rewrite <- (D H); apply D'; now rewrite (D H)].
Qed.
Lemma entry_keeps p t t' : entry p t t' -> keeps t t'.
Proof.
  destruct p as [name value], t as [[[a b] c] d], t' as [[[a' b'] c'] d']. cbn [entry keeps].
  intros [(H & E)|[(H & E)|[(v & n & H & _ & E)|[(v & n & H & _ & E)|(H & E)]]]]; decompose [and] E; subst;
    (split; [|split; [|split]]); auto; try congruence; contradiction.
Qed.
Lemma entries_keeps l : forall t t', entries l t t' -> keeps t t'.
Proof.
  induction l as [|p l IH]; intros t t'; cbn.
  - intros ->. destruct t as [[[a b] c] d]. cbn. auto.
  - intros (t1 & En & Es). eapply keeps_trans; [eapply entry_keeps, En|now apply IH].
Qed.
(* what is in the list is in the result *)
Lemma entries_in l : forall t t' name value, entries l t t' -> In (name, value) l ->
  let '(a, b, c, d) := t' in
  (name = n1 -> a = true) /\ (name = n2 -> b = true) /\
  (forall v n, name = n3 -> value = Some v -> window v n -> c = Some n) /\
  (forall v n, name = n4 -> value = Some v -> window v n -> d = Some (Bits n)) /\
  (name = n4 -> value = None -> d = Some BTrue).
Proof.
  induction l as [|p l IH]; intros t t' name value; [contradiction|]. cbn [entries In].
  intros (t1 & En & Es) [->|I0]; [|exact (IH _ _ _ _ Es I0)].
  pose proof (entries_keeps _ _ _ Es) as K. destruct t as [[[a b] c] d], t1 as [[[a1 b1] c1] d1], t' as [[[a' b'] c'] d'].
  cbn [entry keeps] in *. destruct K as (K1 & K2 & K3 & K4).
  destruct En as [(H & E)|[(H & E)|[(v & n & H & W & E)|[(v & n & H & W & E)|(H & E)]]]]; apply pair_equal_spec in H as [-> ->]; decompose [and] E; subst;
    (split; [|split; [|split; [|split]]]); try (intros; discriminate); auto.
  - intros v' n' _ Hv W'. apply some_inj in Hv. subst v'. rewrite (window_fun _ _ _ W' W). apply K3. discriminate.
  - intros v' n' _ Hv W'. apply some_inj in Hv. subst v'. rewrite (window_fun _ _ _ W' W). apply K4. discriminate.
  - intros. apply K4. discriminate.
Qed.
(* what is in the result was in the list *)
Lemma entries_from l : forall t t', entries l t t' ->
  let '(a, b, c, d) := t in let '(a', b', c', d') := t' in
  (a' = true -> a = true \/ In (n1, None) l) /\ (b' = true -> b = true \/ In (n2, None) l) /\
  (forall n, c' = Some n -> c = Some n \/ (8 <= n <= 15 /\ In (n3, Some (str_of_Z n)) l)) /\
  (forall n, d' = Some (Bits n) -> d = Some (Bits n) \/ (8 <= n <= 15 /\ In (n4, Some (str_of_Z n)) l)) /\
  (d' = Some BTrue -> d = Some BTrue \/ In (n4, None) l).
Proof.
  induction l as [|p l IH]; intros t t'; cbn [entries].
  - intros ->. destruct t as [[[a b] c] d]. split; [auto|]. split; [auto|]. split; [auto|]. split; auto.
  - intros (t1 & En & Es). specialize (IH _ _ Es). destruct t as [[[a b] c] d], t1 as [[[a1 b1] c1] d1], t' as [[[a' b'] c'] d'].
    destruct IH as (I1 & I2 & I3 & I4 & I5). cbn [entry] in En.
    destruct En as [(-> & E)|[(-> & E)|[(v & n & -> & [R ->] & E)|[(v & n & -> & [R ->] & E)|(-> & E)]]]]; decompose [and] E; subst; clear E;
      (split; [|split; [|split; [|split]]]); intros;
      try (match goal with H : ?x = ?y, J : ?x = ?y -> _ |- _ => destruct (J H) as [?|?]; clear J end);
      try (match goal with H : ?x = Some _, J : forall n, ?x = Some n -> _ |- _ => destruct (J _ H) as [?|[? ?]] end);
      try (match goal with H : ?x = Some (Bits _), J : forall n, ?x = Some (Bits n) -> _ |- _ => destruct (J _ H) as [?|[? ?]] end);
      try discriminate; auto; try (right; right; assumption); try (right; left; reflexivity); try (right; split; [assumption|right; assumption]).
    + match goal with H : Some _ = Some _ |- _ => apply some_inj in H; subst end. right. split; [assumption|now left].
    + match goal with H : Some (Bits _) = Some (Bits _) |- _ => injection H as -> end. right. split; [assumption|now left].
Qed.
Definition in_range (t : settings4) : Prop :=
  let '(_, _, c, d) := t in (forall n, c = Some n -> 8 <= n <= 15) /\ (forall n, d = Some (Bits n) -> 8 <= n <= 15).
Lemma entries_range l t : entries l t0 t -> in_range t.
Proof.
  intros H. apply entries_from in H. destruct t as [[[a b] c] d]. cbn in *. destruct H as (_ & _ & H3 & H4 & _).
  split; intros n Hn; [destruct (H3 n Hn) as [?|[? _]]|destruct (H4 n Hn) as [?|[? _]]]; try discriminate; assumption.
Qed.
Lemma entries_true l t : params_ok false l -> entries l t0 t -> snd t <> Some BTrue.
Proof.
  intros [F _] H. apply entries_from in H. destruct t as [[[a b] c] d]. cbn in *. destruct H as (_ & _ & _ & _ & H) . intros Hd.
  destruct (H Hd) as [?|I0]; [discriminate|]. rewrite Forall_forall in F. apply F in I0.
  destruct I0 as [H'|[H'|[(x & n & H' & _)|[(x & n & H' & _)|[H' _]]]]]; discriminate H'.
Qed.

Lemma extract_build t srv : in_range t -> (snd t = Some BTrue -> srv = true) -> extract_parameters (build_parameters t) srv = Ok t.
Proof.
  destruct t as [[[a b] c] d]. intros [Rc Rd] Hs. cbn [snd] in Hs.
  assert (Cs : c = None \/ exists n, c = Some n /\ 8 <= n <= 15) by (destruct c as [n|]; [right; exists n; auto|auto]).
  assert (Ds : d = None \/ (d = Some BTrue /\ srv = true) \/ exists n, d = Some (Bits n) /\ 8 <= n <= 15)
    by (destruct d as [[|n]|]; [right; left; auto|right; right; exists n; auto|auto]).
  clear Rc Rd Hs.
  destruct Ds as [->|[[-> ->]|(m & -> & Rm)]].
  - destruct Cs as [->|(n & -> & Rn)]; [destruct a, b, srv; reflexivity|]. revert n Rn. apply range_cases; destruct a, b, srv; reflexivity.
  - destruct Cs as [->|(n & -> & Rn)]; [destruct a, b; reflexivity|]. revert n Rn. apply range_cases; destruct a, b; reflexivity.
  - destruct Cs as [->|(n & -> & Rn)].
    + revert m Rm. apply range_cases; destruct a, b, srv; reflexivity.
    + revert m Rm. apply (range_cases (fun m => _ = Ok (a, b, Some n, Some (Bits m)))); revert n Rn;
        apply range_cases; destruct a, b, srv; reflexivity.
Qed.

(* ---- factories ---- *)

Definition server_answer {zl} (cfg : pmd_config zl) (t : settings4) : result settings4 :=
  let '(a, b, c, d) := t in
  let! d' := match g_cmwb cfg with
             | None => match d with Some BTrue => Ok None | _ => Ok d end
             | Some n => match d with
                         | None => Raise (NegotiationError (s "required client_max_window_bits"))
                         | Some BTrue => Ok (g_cmwb cfg)
                         | Some (Bits m) => match n with Bits n => if n <? m then Ok (g_cmwb cfg) else Ok d | BTrue => Ok d end
                         end
             end in
  Ok (if g_snct cfg then true else a, if g_cnct cfg then true else b,
      match g_smwb cfg with None => c | Some n => match c with None => Some n | Some m => if n <? m then Some n else c end end, d').
Definition client_answer {zl} (cfg : pmd_config zl) (t : settings4) : result settings4 :=
  let '(a, b, c, d) := t in
  if g_snct cfg && negb a then Raise (NegotiationError (s "expected server_no_context_takeover"))
  else
    let! _ := match g_smwb cfg with
              | None => Ok tt
              | Some n => match c with
                          | None => Raise (NegotiationError (s "expected server_max_window_bits"))
                          | Some m => if n <? m then Raise (NegotiationError (s "unsupported server_max_window_bits")) else Ok tt
                          end
              end in
    let! d' := match g_cmwb cfg with
               | None => match d with Some _ => Raise (NegotiationError (s "unexpected client_max_window_bits")) | None => Ok None end
               | Some BTrue => Ok d
               | Some (Bits n) => match d with
                   | None => Ok (Some (Bits n))
                   | Some (Bits m) => if n <? m then Raise (NegotiationError (s "unsupported client_max_window_bits")) else Ok d
                   | Some BTrue => Ok d
                   end
               end in
    Ok (a, if g_cnct cfg then true else b, c, d').

Definition server_init {zl} (cfg : pmd_config zl) (t : settings4) : result (pmd zl) :=
  let '(a, b, c, d) := t in pmd_init b a (bits_or_15 d) (or_15 c) (g_settings cfg).
Definition client_init {zl} (cfg : pmd_config zl) (t : settings4) : result (pmd zl) :=
  let '(a, b, c, d) := t in pmd_init a b (or_15 c) (bits_or_15 d) (g_settings cfg).

Section Factories.
Context {zl : zlib} {E : Type} (name_of : E -> str) (mk : pmd zl -> E).
Implicit Types cfg : pmd_config zl.
Lemma process_request_params_eq cfg l acc : process_request_params name_of mk cfg l acc =
  if is_duplicate name_of acc then Raise (NegotiationError (s "skipped duplicate " ++ pmd_name))
  else let! t := extract_parameters l true in let! t' := server_answer cfg t in
       let! p := server_init cfg t' in Ok (build_parameters t', mk p).
Proof.
  unfold process_request_params. destruct (is_duplicate name_of acc); [reflexivity|].
  destruct (extract_parameters l true) as [[[[a b] c] d]|]; [|reflexivity]. cbn [rbind]. unfold server_answer.
  destruct (g_cmwb cfg) as [[|n]|]; destruct d as [[|m]|]; cbn [rbind]; try reflexivity; destruct (n <? m); reflexivity.
Qed.
Lemma process_response_params_eq cfg l acc : process_response_params name_of mk cfg l acc =
  if is_duplicate name_of acc then Raise (NegotiationError (s "received duplicate " ++ pmd_name))
  else let! t := extract_parameters l false in let! t' := client_answer cfg t in
       let! p := client_init cfg t' in Ok (mk p).
Proof.
  unfold process_response_params. destruct (is_duplicate name_of acc); [reflexivity|].
  destruct (extract_parameters l false) as [[[[a b] c] d]|]; [|reflexivity]. cbn [rbind]. unfold client_answer.
  destruct (g_snct cfg && negb a); [reflexivity|].
  destruct (g_smwb cfg) as [n|]; [destruct c as [m|]; [destruct (n <? m)|]|]; cbn [rbind]; try reflexivity;
  destruct (g_cmwb cfg) as [[|k]|]; destruct d as [[|j]|]; cbn [rbind]; try reflexivity; destruct (k <? j); reflexivity.
Qed.
End Factories.

Definition config_ok {zl} (srv : bool) (cfg : pmd_config zl) : Prop :=
  in_range (g_snct cfg, g_cnct cfg, g_smwb cfg, g_cmwb cfg) /\ (srv = true -> g_cmwb cfg <> Some BTrue).
Lemma client_config_ok {zl} a b c d st (cfg : pmd_config zl) : client_pmd_config a b c d st = Ok cfg ->
  config_ok false cfg /\ g_snct cfg = a /\ g_cnct cfg = b /\ g_smwb cfg = c /\ g_cmwb cfg = d /\ g_settings cfg = st.
Proof.
  unfold client_pmd_config. destruct c as [c|]; [destruct ((8 <=? c) && (c <=? 15)) eqn:Ec; [|discriminate]|];
    cbn [negb]; (destruct d as [[|d]|]; [|destruct ((8 <=? d) && (d <=? 15)) eqn:Ed; [|discriminate]|]); cbn [negb];
    intros H; apply ok_inj in H; subst cfg; cbn; (split; [|repeat split]); (split; [|discriminate]); cbn;
    (split; intros n Hn; [|]); try discriminate Hn; injection Hn as <-; lia.
Qed.
Lemma server_config_ok {zl} a b c d st (cfg : pmd_config zl) : server_pmd_config a b c d st = Ok cfg ->
  config_ok true cfg /\ g_snct cfg = a /\ g_cnct cfg = b /\ g_smwb cfg = c /\ g_cmwb cfg = d /\ g_settings cfg = st.
Proof.
  unfold server_pmd_config. destruct c as [c|]; [destruct ((8 <=? c) && (c <=? 15)) eqn:Ec; [|discriminate]|];
    cbn [negb]; (destruct d as [[|d]|]; [discriminate|destruct ((8 <=? d) && (d <=? 15)) eqn:Ed; [|discriminate]|]); cbn [negb];
    intros H; apply ok_inj in H; subst cfg; cbn; (split; [|repeat split]); (split; [|discriminate]); cbn;
    (split; intros n Hn; [|]); try discriminate Hn; injection Hn as <-; lia.
Qed.

Lemma pmd_init_fields {zl} a b c d st (p : pmd zl) : pmd_init a b c d st = Ok p ->
  p_remote_nct p = a /\ p_local_nct p = b /\ p_remote_bits p = c /\ p_local_bits p = d /\ p_settings p = st /\ p_decode_cont p = false /\
  (a = false -> exists x, z_decompressobj zl c = Ok x /\ p_decoder p = Some x) /\
  (b = false -> exists x, z_compressobj zl d st = Ok x /\ p_encoder p = Some x) /\ 8 <= c <= 15 /\ 8 <= d <= 15.
Proof.
  unfold pmd_init. destruct ((8 <=? c) && (c <=? 15)) eqn:Ec; [|discriminate]. destruct ((8 <=? d) && (d <=? 15)) eqn:Ed; [|discriminate]. cbn [negb].
  destruct a; cbn [rbind].
  - destruct b; cbn [rbind].
    + intros H. apply ok_inj in H. subst p. cbn. repeat split; try discriminate; lia.
    + destruct (z_compressobj zl d st) as [x|] eqn:Ex; [|discriminate]. cbn [rbind]. intros H. apply ok_inj in H. subst p. cbn.
      split; [auto|]. split; [auto|]. split; [auto|]. split; [auto|]. split; [auto|]. split; [auto|]. split; [discriminate|]. split; [eauto|]. lia.
  - destruct (z_decompressobj zl c) as [y|] eqn:Ey; [|discriminate]. cbn [rbind]. destruct b; cbn [rbind].
    + intros H. apply ok_inj in H. subst p. cbn.
      split; [auto|]. split; [auto|]. split; [auto|]. split; [auto|]. split; [auto|]. split; [auto|]. split; [eauto|]. split; [discriminate|]. lia.
    + destruct (z_compressobj zl d st) as [x|] eqn:Ex; [|discriminate]. cbn [rbind]. intros H. apply ok_inj in H. subst p. cbn.
      split; [auto|]. split; [auto|]. split; [auto|]. split; [auto|]. split; [auto|]. split; [auto|]. split; [eauto|]. split; [eauto|]. lia.
Qed.
Lemma pmd_init_total {zl} a b c d st : 8 <= c <= 15 -> 8 <= d <= 15 -> can_decompress zl -> (b = false -> can_compress zl d st) ->
  exists p : pmd zl, pmd_init a b c d st = Ok p.
Proof.
  intros Rc Rd D C. unfold pmd_init. replace ((8 <=? c) && (c <=? 15)) with true by lia. replace ((8 <=? d) && (d <=? 15)) with true by lia. cbn [negb].
  destruct (D c Rc) as [x Hx]. destruct a.
  - cbn [rbind]. destruct b; [cbn; eauto|]. destruct (C eq_refl) as [y ->]. cbn. eauto.
  - rewrite Hx. cbn [rbind]. destruct b; [cbn; eauto|]. destruct (C eq_refl) as [y ->]. cbn. eauto.
Qed.

(* the components of answers *)
Definition server_smwb (g c : option Z) : option Z :=
  match g with None => c | Some n => match c with None => Some n | Some m => if n <? m then Some n else c end end.
Definition server_cmwb (g d : option bits) (r : option bits) : Prop :=
  match g with
  | None => r = match d with Some BTrue => None | _ => d end
  | Some n => match d with
              | None => False
              | Some BTrue => r = g
              | Some (Bits m) => r = match n with Bits n => if n <? m then g else d | BTrue => d end
              end
  end.
Definition client_cmwb (g d : option bits) (r : option bits) : Prop :=
  match g with
  | None => d = None /\ r = None
  | Some BTrue => r = d
  | Some (Bits n) => match d with
      | None => r = g
      | Some (Bits m) => m <= n /\ r = d
      | Some BTrue => r = d
      end
  end.
Definition client_smwb (g c : option Z) : Prop :=
  match g with None => True | Some n => match c with None => False | Some m => m <= n end end.
Lemma server_answer_view {zl} (cfg : pmd_config zl) a b c d :
  match server_answer cfg (a, b, c, d) with
  | Ok (a', b', c', d') => a' = (if g_snct cfg then true else a) /\ b' = (if g_cnct cfg then true else b) /\
      c' = server_smwb (g_smwb cfg) c /\ server_cmwb (g_cmwb cfg) d d'
  | Raise e => is_negotiation_error e = true /\ g_cmwb cfg <> None /\ d = None
  end.
Proof.
  unfold server_answer, server_cmwb, server_smwb. destruct (g_cmwb cfg) as [[|n]|]; destruct d as [[|m]|]; cbn [rbind];
    try (split; [reflexivity|]; split; [reflexivity|]; split; reflexivity);
    try (split; [reflexivity|]; split; [discriminate|reflexivity]).
  destruct (n <? m); cbn [rbind]; split; try reflexivity; split; try reflexivity; split; reflexivity.
Qed.
Lemma client_answer_view {zl} (cfg : pmd_config zl) a b c d :
  match client_answer cfg (a, b, c, d) with
  | Ok (a', b', c', d') => a' = a /\ b' = (if g_cnct cfg then true else b) /\ c' = c /\ client_cmwb (g_cmwb cfg) d d' /\
      (g_snct cfg = true -> a = true) /\ client_smwb (g_smwb cfg) c
  | Raise e => is_negotiation_error e = true /\
      ~ ((g_snct cfg = true -> a = true) /\ client_smwb (g_smwb cfg) c /\ exists r, client_cmwb (g_cmwb cfg) d r)
  end.
Proof.
  unfold client_answer. destruct (g_snct cfg && negb a) eqn:Ea.
  { split; [reflexivity|]. intros (H & _). destruct (g_snct cfg), a; try discriminate. now specialize (H eq_refl). }
  assert (Ha : g_snct cfg = true -> a = true) by (destruct (g_snct cfg), a; auto; discriminate).
  destruct (match g_smwb cfg with None => Ok tt | Some n => _ end) as [[]|e] eqn:Es; cbn [rbind].
  - assert (Hs : client_smwb (g_smwb cfg) c).
    { unfold client_smwb. destruct (g_smwb cfg) as [n|]; [|exact Logic.I]. destruct c as [m|]; [|discriminate Es]. destruct (n <? m) eqn:L; [discriminate Es|lia]. }
    destruct (g_cmwb cfg) as [[|n]|]; cbn [rbind client_cmwb]; [auto 10| |].
    + destruct d as [[|m]|]; cbn [rbind]; [auto 10| |auto 10]. destruct (n <? m) eqn:L; cbn [rbind].
      * split; [reflexivity|]. intros (_ & _ & r & H & _). lia.
      * assert (m <= n) by lia. auto 10.
    + destruct d as [d|]; cbn [rbind]; [|auto 10]. split; [reflexivity|]. intros (_ & _ & r & H & _). discriminate.
  - unfold client_smwb. destruct (g_smwb cfg) as [n|]; [|discriminate]. destruct c as [m|].
    + destruct (n <? m) eqn:L; [|discriminate]. injection Es as <-. split; [reflexivity|]. intros (_ & H & _). lia.
    + injection Es as <-. split; [reflexivity|]. now intros (_ & H & _).
Qed.

Lemma server_answer_range {zl} (cfg : pmd_config zl) t t' : config_ok true cfg -> in_range t -> server_answer cfg t = Ok t' ->
  in_range t' /\ snd t' <> Some BTrue.
Proof.
  intros [[G1 G2] Nt] R H. specialize (Nt eq_refl). destruct t as [[[a b] c] d], t' as [[[a' b'] c'] d'].
  pose proof (server_answer_view cfg a b c d) as V. rewrite H in V. destruct V as (_ & _ & Hc & Hd). destruct R as [R1 R2].
  cbn [snd in_range]. split; [split|].
  - subst c'. unfold server_smwb. intros n. destruct (g_smwb cfg) as [x|]; [|apply R1]. destruct c as [y|]; [|apply G1].
    destruct (x <? y); [apply G1|apply R1].
  - intros n. unfold server_cmwb in Hd. destruct (g_cmwb cfg) as [[|x]|]; [congruence| |].
    + destruct d as [[|y]|]; [subst d'; apply G2| |contradiction]. destruct (x <? y); subst d'; [apply G2|apply R2].
    + destruct d as [[|y]|]; subst d'; try discriminate. apply R2.
  - unfold server_cmwb in Hd. destruct (g_cmwb cfg) as [[|x]|]; [congruence| |].
    + destruct d as [[|y]|]; [subst d'; discriminate| |contradiction]. destruct (x <? y); subst d'; discriminate.
    + destruct d as [[|y]|]; subst d'; discriminate.
Qed.
Lemma request_range {zl} (cfg : pmd_config zl) srv : config_ok srv cfg -> in_range (g_snct cfg, g_cnct cfg, g_smwb cfg, g_cmwb cfg).
Proof. now intros [H _]. Qed.

(* the answer to an offer is always acceptable *)
Lemma answer_fits {zl} (ccfg scfg : pmd_config zl) t : config_ok false ccfg -> config_ok true scfg ->
  server_answer scfg (g_snct ccfg, g_cnct ccfg, g_smwb ccfg, g_cmwb ccfg) = Ok t -> client_answer ccfg t = Ok t.
Proof.
  intros Kc [_ Nt] H. specialize (Nt eq_refl). destruct t as [[[a b] c] d].
  pose proof (server_answer_view scfg (g_snct ccfg) (g_cnct ccfg) (g_smwb ccfg) (g_cmwb ccfg)) as V. rewrite H in V. clear H.
  destruct V as (Ha & Hb & Hc & Hd).
  assert (F1 : g_snct ccfg = true -> a = true) by (intros F; rewrite F in Ha; destruct (g_snct scfg); exact Ha).
  assert (F2 : (if g_cnct ccfg then true else b) = b) by (subst b; destruct (g_cnct ccfg), (g_cnct scfg); reflexivity).
  assert (F3 : client_smwb (g_smwb ccfg) c).
  { subst c. unfold client_smwb, server_smwb. destruct (g_smwb ccfg) as [n|]; [|exact Logic.I]. destruct (g_smwb scfg) as [m|]; [|lia].
    destruct (Z.ltb_spec m n); lia. }
  assert (F4 : client_cmwb (g_cmwb ccfg) d d).
  { unfold client_cmwb, server_cmwb in *. destruct (g_cmwb scfg) as [[|m]|]; [congruence| |]; destruct (g_cmwb ccfg) as [[|n]|]; try contradiction; subst d; auto.
    - destruct (Z.ltb_spec m n); (split; [lia|reflexivity]).
    - split; [lia|reflexivity]. }
  pose proof (client_answer_view ccfg a b c d) as W. destruct (client_answer ccfg (a, b, c, d)) as [[[[a2 b2] c2] d2]|e].
  - destruct W as (-> & -> & -> & W & _). rewrite F2. do 2 f_equal. unfold client_cmwb in *.
    destruct (g_cmwb ccfg) as [[|n]|]; [exact W| |destruct F4, W; congruence]. destruct d as [[|m]|]; try (destruct W; congruence); congruence.
  - exfalso. destruct W as [_ W]. apply W. split; [exact F1|]. split; [exact F3|]. now exists d.
Qed.

Lemma or_15_in n : 8 <= n <= 15 -> or_15 (Some n) = n.
Proof. intros R. cbn. destruct (Z.eqb_spec n 0); [lia|reflexivity]. Qed.
Lemma bits_or_15_in n : 8 <= n <= 15 -> bits_or_15 (Some (Bits n)) = n.
Proof. intros R. cbn. destruct (Z.eqb_spec n 0); [lia|reflexivity]. Qed.

Lemma build_states a b c d : in_range (a, b, c, d) -> d <> Some BTrue ->
  states_flag (build_parameters (a, b, c, d)) n1 a /\ states_flag (build_parameters (a, b, c, d)) n2 b /\
  states_bits (build_parameters (a, b, c, d)) n3 (or_15 c) /\ states_bits (build_parameters (a, b, c, d)) n4 (bits_or_15 d).
Proof.
  intros [Rc Rd] Nd.
  assert (Cs : c = None \/ exists n, c = Some n /\ 8 <= n <= 15) by (destruct c as [n|]; [right; exists n; auto|auto]).
  assert (Ds : d = None \/ exists n, d = Some (Bits n) /\ 8 <= n <= 15) by (destruct d as [[|n]|]; [congruence|right; exists n; auto|auto]).
  clear Rc Rd Nd. unfold build_parameters.
  assert (B3 : forall n, 8 <= n <= 15 -> (n =? 0) = false) by (intros; lia).
  destruct Cs as [->|(n & -> & Rn)], Ds as [->|(m & -> & Rm)]; rewrite ?B3, ?or_15_in, ?bits_or_15_in by assumption;
    unfold states_flag, states_bits; destruct a, b; cbn [app In or_15 bits_or_15];
    (split; [|split; [|split]]);
    try (split; [reflexivity|auto]); try (split; [|discriminate]; intros H; repeat destruct H as [H|H]; try discriminate H; contradiction);
    try (right; split; [|reflexivity]; intros v H; repeat destruct H as [H|H]; try discriminate H; contradiction);
    left; auto.
Qed.
