(* Facts about the parser loop of Model/Connection.v: termination, and independence from
   the way data is split. *)
From Verif Require Import Base.Prelude Base.PreludeFacts Model.Utils Model.Streams Model.Frames
  Model.Connection Proofs.StreamsFacts Proofs.FramesFacts.

Section Parser.
Context {E : Type} (X : ext_ops E).
Implicit Type c : conn E.

Lemma live_parse_wire {S} mask max : live (@parse_wire S mask max).
Proof.
  unfold parse_wire. apply live_gbind; [apply live_read_exact|].
  intros [|x1 [|x2 [|]]]; try exact I.
  destruct (opcode_of_N _); [|exact I]. destruct (negb _); [exact I|].
  apply live_gbind.
  { destruct (_ =? 126)%N; [|destruct (_ =? 127)%N]; try exact I;
    (apply live_gbind; [apply live_read_exact|intros; exact I]). }
  intros n. apply live_gbind.
  { destruct max as [m|]; [|exact I]. destruct (m <? Z.of_N n)%Z; exact I. }
  intros _. apply live_gbind.
  { destruct mask; [apply live_read_exact|exact I]. }
  intros k. apply live_gbind; [apply live_read_exact|].
  intros d. apply live_gbind; [|intros; exact I].
  destruct mask; [apply live_glift|exact I].
Qed.

Lemma live_parse_frame {S} (ge : S -> list E) se mask max : live (parse_frame X ge se mask max).
Proof.
  unfold parse_frame. apply live_gbind; [apply live_parse_wire|].
  intros f. simpl. intros x. destruct (decode_reversed X (ge x) f max) as [exts' r]. simpl.
  apply live_gbind; [apply live_glift|]. intros f'. apply live_gbind; [apply live_glift|].
  intros; exact I.
Qed.

Lemma live_gmeth (m : @meth E) : live (gmeth m).
Proof. simpl. intros c. destruct (m c) as [c' r]. simpl. apply live_glift. Qed.

Lemma live_parse_body : live (parse_body X).
Proof.
  unfold parse_body. cbn [gbind at_eof get_state live]. intros c.
  apply live_gbind; [apply live_parse_frame|].
  intros f. apply (live_gbind (gmeth _)); [apply live_gmeth|]. intros _. apply live_gmeth.
Qed.

(* ---- termination of the loop ---- *)

Lemma parse_frame_consumes {S} (ge : S -> list E) se mask max r x f r' x' :
  run (parse_frame X ge se mask max) r x = ODone f r' x' ->
  length (r_buffer r') < length (r_buffer r).
Proof.
  unfold parse_frame. rewrite run_gbind.
  destruct (run (parse_wire mask max) r x) as [?|f0 r0 x0|?] eqn:W; cbn [obind]; try discriminate.
  apply parse_wire_inv in W as (-> & _ & w & key & Hb & (ext & b0 & b1 & k & body & -> & _) & _).
  simpl. destruct (decode_reversed X (ge x) f0 max) as [exts' r1]. simpl.
  rewrite run_gbind. destruct r1; simpl; [|discriminate].
  rewrite run_gbind. destruct (check a); simpl; [|discriminate].
  intros H. assert (r0 = r') by congruence. subst r0. rewrite Hb. simpl. rewrite !app_length. lia.
Qed.

Lemma run_gmeth_reader (m : @meth E) r c :
  run (gmeth m) r c = let '(c', res) := m c in
                      match res with Ok _ => ODone tt r c' | Raise e => OFail e r c' end.
Proof. simpl. destruct (m c) as [c' [[]|e]]; reflexivity. Qed.

Lemma parse_body_consumes r c r' c' a :
  run (parse_body X) r c = ODone a r' c' -> length (r_buffer r') < length (r_buffer r).
Proof.
  unfold parse_body. rewrite run_gbind. simpl (run at_eof r c).
  assert (HF : forall r0, run (let* f := parse_frame X c_exts set_exts (is_server (c_side c)) (next_max_size c) in
                 let* _ := gmeth (process_frame X f) in
                 gmeth (mupd (fun c => set_events c (c_events c ++ [EvFrame f])))) r0 c = ODone a r' c' ->
               length (r_buffer r') < length (r_buffer r0)).
  { intros r0. rewrite run_gbind.
    destruct (run (parse_frame X c_exts set_exts (is_server (c_side c)) (next_max_size c)) r0 c)
      as [?|f0 r1 x1|?] eqn:P; cbn [obind]; try discriminate.
    apply parse_frame_consumes in P. rewrite run_gbind, run_gmeth_reader.
    destruct (process_frame X f0 x1) as [c1 [[]|e]]; cbn [obind]; [|discriminate].
    rewrite run_gmeth_reader. simpl. intros H. assert (r1 = r') by congruence. congruence. }
  destruct (r_buffer r) as [|x buf] eqn:B.
  - destruct (r_eof r); cbn [obind]; [|discriminate].
    simpl. destruct (c_close_rcvd c); [|discriminate].
    destruct (c_eof_sent c) eqn:EE; simpl; [discriminate|].
    unfold send_eof. rewrite EE. simpl. discriminate.
  - cbn [obind]. intros H. cbn [run get_state gbind] in H. apply HF in H. now rewrite B in H.
Qed.

Lemma run_parser_total fuel : forall g r c,
  length (r_buffer r) + 2 <= fuel ->
  exists o, run_parser X fuel g r c = Some o /\ forall a r' c', o <> ODone a r' c'.
Proof.
  assert (Body : forall fuel r c, length (r_buffer r) + 1 <= fuel ->
            exists o, run_parser X fuel (parse_body X) r c = Some o /\ forall a r' c', o <> ODone a r' c').
  { induction fuel0 as [|f IH]; intros r c H; [lia|]. cbn [run_parser].
    destruct (run (parse_body X) r c) as [g' r' c'|a r' c'|e r' c'] eqn:R;
      try (eexists; split; [reflexivity|discriminate]).
    apply parse_body_consumes in R. apply IH. lia. }
  intros g r c H. destruct fuel as [|f]; [lia|]. cbn [run_parser].
  destruct (run g r c) as [g' r' c'|a r' c'|e r' c'] eqn:R;
    try (eexists; split; [reflexivity|discriminate]).
  apply Body. destruct (run_suffix g r c) as [pre P]. rewrite R in P. rewrite P, app_length in H. lia.
Qed.

Lemma run_parser_mono f f' g r c o :
  run_parser X f g r c = Some o -> f <= f' -> run_parser X f' g r c = Some o.
Proof.
  revert f' g r c. induction f as [|f IH]; intros f' g r c H L; [discriminate|].
  destruct f' as [|f']; [lia|]. cbn [run_parser] in *.
  destruct (run g r c); auto. apply IH; [exact H|lia].
Qed.

Lemma run_parser_det f f' g r c o o' :
  run_parser X f g r c = Some o -> run_parser X f' g r c = Some o' -> o = o'.
Proof.
  intros H H'. destruct (Nat.le_ge_cases f f') as [L|L].
  - rewrite (run_parser_mono _ _ _ _ _ _ H L) in H'. congruence.
  - rewrite (run_parser_mono _ _ _ _ _ _ H' L) in H. congruence.
Qed.

(* what the parser does with what's in the buffer *)
Definition parse_all (g : gen (conn E) unit) (r : reader) c : option (outcome (conn E) unit) :=
  run_parser X (parser_fuel r) g r c.

Lemma parse_all_intro f g r c o : run_parser X f g r c = Some o -> parse_all g r c = Some o.
Proof.
  intros H. unfold parse_all.
  destruct (run_parser_total (parser_fuel r) g r c (le_n _)) as (o' & H' & _).
  rewrite H'. f_equal. eapply run_parser_det; eassumption.
Qed.

Lemma parse_all_total g r c :
  (exists g' r' c', parse_all g r c = Some (OSusp g' r' c')) \/
  (exists e r' c', parse_all g r c = Some (OFail e r' c')).
Proof.
  unfold parse_all. destruct (run_parser_total (parser_fuel r) g r c (le_n _)) as (o & H & N).
  rewrite H. destruct o; [left|exfalso; eapply N; reflexivity|right]; eauto.
Qed.

(* ---- more data ---- *)

Lemma run_parser_feed f : forall g r c d o,
  live_at (length (r_buffer r)) g -> r_eof r = false ->
  run_parser X f g r c = Some o ->
  match o with
  | OSusp g' r' c' => live_at (length (r_buffer r')) g' /\ r_eof r' = false /\
      forall f' o', run_parser X f' g' (grow r' d) c' = Some o' ->
      exists f'', run_parser X f'' g (grow r d) c = Some o'
  | ODone a r' c' => False
  | OFail e r' c' => r_eof r' = false /\ run_parser X f g (grow r d) c = Some (OFail e (grow r' d) c')
  end.
Proof.
  induction f as [|f IH]; intros g r c d o L Er H; [discriminate|]. cbn [run_parser] in H.
  pose proof (run_feed g r c d L Er) as F.
  destruct (run g r c) as [g' r' c'|a r' c'|e r' c'] eqn:R.
  - injection H as <-. destruct F as (F & L' & E'). split; [exact L'|]. split; [exact E'|].
    intros f' o' H'. exists f'. destruct f' as [|f']; [discriminate|]. cbn [run_parser] in *.
    rewrite F. exact H'.
  - destruct F as [F E'].
    pose proof (IH (parse_body X) r' c' d o (live_live_at _ _ live_parse_body) E' H) as G.
    destruct o as [g1 r1 c1|a1 r1 c1|e1 r1 c1].
    + destruct G as (G1 & G2 & G3). split; [exact G1|]. split; [exact G2|].
      intros f' o' H'. destruct (G3 f' o' H') as [f'' H'']. exists (S f''). cbn [run_parser].
      rewrite F. exact H''.
    + exact G.
    + destruct G as [G1 G2]. split; [exact G1|]. cbn [run_parser]. rewrite F. exact G2.
  - injection H as <-. destruct F as [F E']. split; [exact E'|]. cbn [run_parser]. now rewrite F.
Qed.

Lemma parse_all_feed g r c d :
  live_at (length (r_buffer r)) g -> r_eof r = false ->
  match parse_all g r c with
  | Some (OSusp g' r' c') => live_at (length (r_buffer r')) g' /\ r_eof r' = false /\
      parse_all g (grow r d) c = parse_all g' (grow r' d) c'
  | Some (OFail e r' c') => r_eof r' = false /\ parse_all g (grow r d) c = Some (OFail e (grow r' d) c')
  | _ => False
  end.
Proof.
  intros L Er.
  destruct (parse_all_total g r c) as [(g' & r' & c' & H)|(e & r' & c' & H)]; rewrite H;
    pose proof (run_parser_feed _ _ _ _ d _ L Er H) as F; cbn in F.
  - destruct F as (L' & E' & F). split; [exact L'|]. split; [exact E'|].
    destruct (run_parser_total (parser_fuel (grow r' d)) g' (grow r' d) c' (le_n _)) as (o & Ho & _).
    destruct (F _ _ Ho) as [f'' Hf]. apply parse_all_intro in Hf. rewrite Hf. symmetry. exact Ho.
  - destruct F as (E' & F). split; [exact E'|]. apply parse_all_intro in F. exact F.
Qed.

Lemma step_parser_eq (m : machine E) :
  step_parser X m =
  match m_parser m with
  | PDead => (m, Raise (match m_exc m with Some _ => RuntimeError | None => AssertionError end))
  | PRun g =>
    match parse_all g (m_reader m) (m_conn m) with
    | Some (OSusp g' r c) => (Machine c r (PRun g') (m_exc m), Ok tt)
    | Some (OFail e r c) =>
      let '(code, reason) := close_code_for e in
      let '(c', res) := fail_connection X code reason c in
      match res with
      | Ok _ => (Machine c' r PDead (Some e), Raise e)
      | Raise e' => (Machine c' r PDead (m_exc m), Raise e')
      end
    | _ => (m, Raise NotImplementedError)
    end
  end.
Proof.
  unfold step_parser. destruct (m_parser m) as [g|]; [|reflexivity]. fold (parse_all g (m_reader m) (m_conn m)).
  destruct (parse_all_total g (m_reader m) (m_conn m)) as [(g' & r' & c' & H)|(e & r' & c' & H)]; rewrite H;
    reflexivity.
Qed.

(* the parser is suspended where more data can be given *)
Definition parser_live (m : machine E) : Prop :=
  r_eof (m_reader m) = false ->
  match m_parser m with
  | PRun g => live_at (length (r_buffer (m_reader m))) g
  | PDead => True
  end.

Definition grow_m (m : machine E) (d : bytes) : machine E :=
  Machine (m_conn m) (grow (m_reader m) d) (m_parser m) (m_exc m).

Lemma receive_data_eq (m : machine E) d :
  receive_data X m d = if r_eof (m_reader m) then (m, Raise EOFError) else step_parser X (grow_m m d).
Proof.
  unfold receive_data, feed_data, grow_m, grow. destruct (r_eof (m_reader m)) eqn:Er; reflexivity.
Qed.

Lemma live_at_grow {S A} n n' (g : gen S A) : n <= n' -> live_at n g -> live_at n' g.
Proof. destruct g; simpl; auto. intros H [H1 H2]. split; [lia|exact H2]. Qed.

Lemma grow_m_live m d : parser_live m -> parser_live (grow_m m d).
Proof.
  unfold parser_live, grow_m. simpl. intros H Er. specialize (H Er).
  destruct (m_parser m); [|exact I]. eapply live_at_grow; [|exact H]. rewrite app_length. lia.
Qed.

Lemma step_parser_live m : parser_live m -> parser_live (fst (step_parser X m)).
Proof.
  intros L. destruct (r_eof (m_reader m)) eqn:Er.
  - rewrite step_parser_eq. destruct (m_parser m) as [g|] eqn:P; [|exact L].
    destruct (parse_all_total g (m_reader m) (m_conn m)) as [(g' & r' & c' & H)|(e & r' & c' & H)].
    + rewrite H. intros Er'. simpl in Er'.
      exfalso. unfold parse_all in H.
      assert (K : forall f g r c, r_eof r = true -> run_parser X f g r c = Some (OSusp g' r' c') -> r_eof r' = true).
      { clear. induction f as [|f IH]; intros g r c Er H; [discriminate|]. cbn [run_parser] in H.
        assert (R : r_eof (match run g r c with
                           | OSusp _ r' _ | ODone _ r' _ | OFail _ r' _ => r' end) = true).
        { clear H. revert r c Er. induction g as [a|e|p k IH'|n k IH'|k IH'|k IH'|k IH'|y k IH'|k IH']; intros r c Er; simpl; auto.
          - destruct (find_lf_from p (r_buffer r)); [apply IH'; exact Er|]. rewrite Er. apply IH'. exact Er.
          - destruct (n <? 0)%Z; [apply IH'; exact Er|]. destruct (lenZ (r_buffer r) <? n)%Z; [|apply IH'; exact Er].
            rewrite Er. apply IH'. exact Er.
          - rewrite Er. apply IH'. exact Er.
          - destruct (r_buffer r); [rewrite Er|]; apply IH'; exact Er. }
        destruct (run g r c); [congruence| |discriminate]. eapply IH; eassumption. }
      apply K in H; congruence.
    + rewrite H. destruct (close_code_for e) as [code reason].
      destruct (fail_connection X code reason c') as [c'' [u|e']]; intros _; exact I.
  - rewrite step_parser_eq. specialize (L Er). destruct (m_parser m) as [g|] eqn:P.
    + pose proof (parse_all_feed g (m_reader m) (m_conn m) [] L Er) as F.
      destruct (parse_all g (m_reader m) (m_conn m)) as [[g' r' c'|a r' c'|e r' c']|]; try contradiction.
      * intros _. simpl. apply F.
      * destruct (close_code_for e) as [code reason].
        destruct (fail_connection X code reason c') as [c'' [u|e']]; intros _; exact I.
    + intros _. simpl. rewrite P. exact I.
Qed.

Lemma receive_data_app m d e :
  parser_live m ->
  receive_data X m (d ++ e) =
  (fst (receive_data X (fst (receive_data X m d)) e),
   match snd (receive_data X m d) with
   | Ok _ => snd (receive_data X (fst (receive_data X m d)) e)
   | Raise x => Raise x
   end).
Proof.
  intros L. rewrite !receive_data_eq. destruct (r_eof (m_reader m)) eqn:Er.
  { simpl. rewrite Er. reflexivity. }
  assert (G : grow_m (grow_m m d) e = grow_m m (d ++ e)).
  { unfold grow_m. simpl. now rewrite grow_grow. }
  rewrite <- G. set (m1 := grow_m m d) in *.
  assert (L1 : parser_live m1) by (apply grow_m_live; exact L).
  assert (Er1 : r_eof (m_reader m1) = false) by exact Er.
  clearbody m1. clear G L Er m. rename m1 into m.
  rewrite (step_parser_eq m), (step_parser_eq (grow_m m e)). unfold grow_m at 1 2 3 4 5.
  cbn [m_parser m_reader m_conn m_exc].
  destruct (m_parser m) as [g|] eqn:P.
  2: { cbn [fst snd]. rewrite Er1. rewrite step_parser_eq. unfold grow_m. cbn [m_parser m_exc]. rewrite P.
       reflexivity. }
  specialize (L1 Er1). rewrite P in L1.
  pose proof (parse_all_feed g (m_reader m) (m_conn m) e L1 Er1) as F.
  destruct (parse_all g (m_reader m) (m_conn m)) as [[g' r' c'|a r' c'|x r' c']|]; try contradiction.
  - destruct F as (_ & Er' & F). rewrite F. cbn [fst snd m_reader]. rewrite Er'.
    rewrite step_parser_eq. unfold grow_m. cbn [m_parser m_reader m_conn m_exc].
    destruct (parse_all_total g' (grow r' e) c') as [(g2 & r2 & c2 & H)|(x & r2 & c2 & H)]; rewrite H.
    + reflexivity.
    + destruct (close_code_for x) as [code reason].
      destruct (fail_connection X code reason c2) as [c3 [u|x']]; reflexivity.
  - destruct F as (Er' & F). rewrite F. destruct (close_code_for x) as [code reason].
    destruct (fail_connection X code reason c') as [c3 [u|x']]; cbn [fst snd m_reader];
      rewrite Er', step_parser_eq; reflexivity.
Qed.

Lemma receive_data_live m d : parser_live m -> parser_live (fst (receive_data X m d)).
Proof.
  intros L. rewrite receive_data_eq. destruct (r_eof (m_reader m)) eqn:Er; [exact L|].
  apply step_parser_live, grow_m_live, L.
Qed.

Lemma receive_eof_live m : parser_live m -> parser_live (fst (receive_eof X m)).
Proof.
  intros L. unfold receive_eof, feed_eof. destruct (r_eof (m_reader m)); [exact L|].
  apply step_parser_live. intros H. discriminate.
Qed.

Lemma do_call_live m k : parser_live m -> parser_live (fst (do_call X m k)).
Proof.
  intros L. destruct k; cbn [do_call].
  - pose proof (receive_data_live m data L) as H. destruct (receive_data X m data); exact H.
  - pose proof (receive_eof_live m L) as H. destruct (receive_eof X m); exact H.
  - unfold on_conn. destruct (send_continuation X data fin (m_conn m)). exact L.
  - unfold on_conn. destruct (send_text X data fin (m_conn m)). exact L.
  - unfold on_conn. destruct (send_binary X data fin (m_conn m)). exact L.
  - unfold on_conn. destruct (send_close X code reason (m_conn m)). exact L.
  - unfold on_conn. destruct (send_ping X data (m_conn m)). exact L.
  - unfold on_conn. destruct (send_pong X data (m_conn m)). exact L.
  - exact L.
  - exact L.
Qed.

Lemma do_calls_ind (P : machine E -> Prop) m ks :
  P m -> (forall m k, P m -> P (fst (do_call X m k))) -> P (fst (do_calls X m ks)).
Proof.
  intros H0 Hs. revert m H0. induction ks as [|k ks IH]; intros m H0; [exact H0|]. cbn [do_calls].
  specialize (Hs m k H0). destruct (do_call X m k) as [m' r]. specialize (IH m' Hs).
  destruct (do_calls X m' ks). exact IH.
Qed.

Lemma start_live g c : live g -> parser_live (start X g c).
Proof. intros L. apply step_parser_live. intros _. apply live_live_at, L. Qed.

Lemma do_calls_live m ks : parser_live m -> parser_live (fst (do_calls X m ks)).
Proof. intros L. apply do_calls_ind; [exact L|]. intros; now apply do_call_live. Qed.
End Parser.
