(* Two sans-I/O connections, each of which receives what the other one writes, with any extensions which the receiver
   can undo (for C91 and C92). *)
From Verif Require Import Base.Prelude Base.PreludeFacts Model.Utils Model.Streams Model.Frames
  Model.Http11 Model.Connection Spec.Rfc6455 Spec.FrameSpec Spec.Messages Spec.History Spec.Endpoints
  Proofs.StreamsFacts Proofs.FramesFacts Proofs.ParserFacts Proofs.AtomicFacts Proofs.ConnectionFacts
  Proofs.Steps Proofs.MessagesFacts Proofs.Invariants Proofs.SendInvariants Proofs.MoreInvariants
  Proofs.Receive Proofs.Failing Properties.FrameCodec Properties.Connection Properties.Closing Proofs.ParserRun
  Proofs.SansIoEnds Proofs.SansIoSends.

Lemma written_frames sd ws is : written ws is ->
  (forall f key, In (Sent f key) is -> is_masked (on_wire f key) = is_server sd) ->
  Forall2 (wire1 sd) (sent_frames is) (filter non_empty ws).
Proof.
  induction 1 as [|w i ws is Hw _ IH]; intros M; [constructor|]. destruct i as [|f key]; cbn [item_bytes] in Hw.
  - subst w. cbn [filter non_empty]. apply IH. intros f key Hin. apply M. now right.
  - apply minimal_is_layout in Hw. cbn [filter]. rewrite (layout_cons _ _ Hw). change (sent_frames (Sent f key :: is)) with (f :: sent_frames is).
    constructor; [|apply IH; intros f' key' Hin; apply M; now right]. exists key. split; [exact Hw|]. apply M. now left.
Qed.
Lemma sent_split is : forall pre f post, sent_frames is = pre ++ f :: post ->
  exists is1 key is2, is = is1 ++ Sent f key :: is2 /\ sent_frames is1 = pre /\ sent_frames is2 = post.
Proof.
  induction is as [|i is IH]; intros pre f post H; [destruct pre; discriminate|]. destruct i as [|g key].
  - destruct (IH pre f post H) as (is1 & k & is2 & E & H1 & H2). exists (Eof :: is1), k, is2. rewrite E. auto.
  - change (sent_frames (Sent g key :: is)) with (g :: sent_frames is) in H. destruct pre as [|p pre]; cbn [app] in H.
    + injection H as -> H. exists [], key, is. auto.
    + injection H as -> H. destruct (IH pre f post H) as (is1 & k & is2 & E & H1 & H2). exists (Sent p key :: is1), k, is2.
      split; [now rewrite E|]. split; [|exact H2]. change (p :: sent_frames is1 = p :: pre). now rewrite H1.
Qed.

Lemma map_combine {A B} (ps : list (A * B)) : combine (map fst ps) (map snd ps) = ps.
Proof. induction ps as [|[x y] ps IH]; [reflexivity|]. cbn. now rewrite IH. Qed.
Lemma restored_names ps : Forall (fun p => f_opcode (snd p) = f_opcode (fst p) /\ f_fin (snd p) = f_fin (fst p)) ps ->
  Forall (fun p => is_ctrl (f_opcode (fst p)) = true -> snd p = fst p) ps ->
  restored (map snd ps) (data_frames (map fst ps)) = map fst ps.
Proof.
  induction ps as [|[f g] ps IH]; intros F C; [reflexivity|]. apply Forall_cons_iff in F as [(Fo & _) F'], C as [C1 C'].
  cbn [fst snd] in Fo, C1. specialize (IH F' C'). unfold data_frames in *. cbn [map fst snd restored filter].
  assert (Dg : is_data_b g = is_data_b f) by (unfold is_data_b; now rewrite Fo). rewrite Dg. destruct (is_data_b f) eqn:Df.
  - now rewrite IH.
  - rewrite IH, C1; [reflexivity|]. unfold is_data_b in Df. destruct (f_opcode f); try discriminate Df; reflexivity.
Qed.

Lemma combine_split {A B} (l : list A) : forall (l' : list B) x y, In (x, y) (combine l l') ->
  exists l1 l2 l1' l2', l = l1 ++ x :: l2 /\ l' = l1' ++ y :: l2' /\ length l1 = length l1'.
Proof.
  induction l as [|a l IH]; intros [|b l'] x y H; cbn [combine] in H; try contradiction. destruct H as [H|H].
  - injection H as -> ->. exists [], l, [], l'. auto.
  - destruct (IH l' x y H) as (l1 & l2 & l1' & l2' & -> & -> & L). exists (a :: l1), l2, (b :: l1'), l2'. cbn. auto.
Qed.
Lemma do_calls_length {E} (X : ext_ops E) ks : forall m, length (snd (do_calls X m ks)) = length ks.
Proof.
  induction ks as [|k ks IH]; intros m; [reflexivity|]. cbn [do_calls]. destruct (do_call X m k) as [m1 r1]. specialize (IH m1).
  destruct (do_calls X m1 ks). cbn in *. now rewrite IH.
Qed.
Lemma app_same_length {A} (l1 l2 l1' l2' : list A) : length l1 = length l1' -> l1 ++ l2 = l1' ++ l2' -> l1 = l1' /\ l2 = l2'.
Proof.
  revert l1'. induction l1 as [|x l1 IH]; intros [|y l1'] L H; try discriminate L; [auto|]. cbn in L, H. injection H as -> H. injection L as L.
  destruct (IH l1' L H) as [-> ->]. auto.
Qed.

(* what one end encodes can be decoded by the other one *)
Definition linkable {E} (X : ext_ops E) (size : N) (sender receiver : list E) : Prop :=
  exists (Enc Lk : list (frame * frame) -> list E -> Prop),
  (Enc [] sender /\
   (forall ps exts f done cur, Enc ps exts -> check f = Ok tt -> is_data_b f = true -> (lenN (f_data f) < size)%N ->
      message_sequence (map fst ps) done cur -> next_ok cur f ->
      exists exts' g, encode_in_order X exts f = (exts', Ok g) /\ (lenN (f_data g) < 2 ^ 64)%N /\
        f_opcode g = f_opcode f /\ f_fin g = f_fin f /\ Enc (ps ++ [(f, g)]) exts') /\
   (forall ps exts, Enc ps exts -> forall f, is_ctrl (f_opcode f) = true -> check f = Ok tt -> Enc (ps ++ [(f, f)]) exts) /\
   (forall ps exts g n exts' r, Enc ps exts -> decode_reversed X exts g n = (exts', r) -> Enc ps exts')) /\
  (Lk [] receiver /\
   (forall ps exts l f g l' exts1 n, Enc ps exts -> ps = l ++ (f, g) :: l' -> Lk l exts1 ->
      fits n (length (f_data f)) -> exists exts', decode_reversed X exts1 g n = (exts', Ok f) /\ Lk (l ++ [(f, g)]) exts') /\
   (forall l exts f exts' r, Lk l exts -> encode_in_order X exts f = (exts', r) -> Lk l exts')).

Section Generic.
Context {E : Type} (X : ext_ops E) (size : N).
Hypothesis Kf : keeps_framing X.
Hypothesis Pl : forall exts, plain_ctrl X exts.
Implicit Types e o a b : endpoint E.
Notation in_use := (in_use X size).
Notation receives_from := (receives_from X).
Definition connected e o : Prop := linkable X size (c_exts (e_conn o)) (c_exts (e_conn e)).

Lemma sender o (Enc : list (frame * frame) -> list E -> Prop) : in_use o -> Enc [] (c_exts (e_conn o)) ->
   (forall ps exts f done cur, Enc ps exts -> check f = Ok tt -> is_data_b f = true -> (lenN (f_data f) < size)%N ->
      message_sequence (map fst ps) done cur -> next_ok cur f ->
      exists exts' g, encode_in_order X exts f = (exts', Ok g) /\ (lenN (f_data g) < 2 ^ 64)%N /\
        f_opcode g = f_opcode f /\ f_fin g = f_fin f /\ Enc (ps ++ [(f, g)]) exts') ->
   (forall ps exts, Enc ps exts -> forall f, is_ctrl (f_opcode f) = true -> check f = Ok tt -> Enc (ps ++ [(f, f)]) exts) ->
   (forall ps exts g n exts' r, Enc ps exts -> decode_reversed X exts g n = (exts', r) -> Enc ps exts') ->
   forall fs gs, sent_by o fs gs -> exists ps, fs = map fst ps /\ Sst Enc (data_sent o) gs (m_conn (e_state o)) ps.
Proof.
  intros [HA FA _ Sm] E0 E1 E2 E3 fs gs (is & W & Hg & Hf).
  assert (Sm' : forall k op data fin, In k (e_calls o) -> data_call k = Some (op, data, fin) -> (lenN data < size)%N).
  { intros k op data fin Hin D. destruct k; try discriminate D; injection D as _ <- <-; eapply Sm; eauto. }
  destruct (sends_calls X size Enc E1 (fun ps exts H => conj (Pl exts) (E2 ps exts H)) E3 (e_conn o) (e_calls o) _ _ FA E0 Sm' HA) as (is1 & W1 & ps & S).
  rewrite (written_unique _ _ _ W1 W), Hg in S. exists ps. split; [|exact S].
  rewrite <- Hf, <- (ss_written _ _ _ _ _ S). unfold data_sent. rewrite <- (ss_data _ _ _ _ _ S). apply restored_names; apply S.
Qed.

Lemma sends_stream o e fs gs rest : in_use o -> connected e o -> receives_from e o fs gs rest ->
  Stream fs /\ data_frames fs = data_sent o /\ length fs = length gs /\
  exists ws, Forall2 (wire1 (c_side (e_conn e))) gs ws /\ received_data (e_calls e) ++ rest = concat ws.
Proof.
  intros U (Enc & Lk & (E0 & E1 & E2 & E3) & _) [Sd Cat Sb Li Cb _].
  destruct (sender o Enc U E0 E1 E2 E3 fs gs Sb) as (ps & -> & S).
  destruct U as [HA FA _ Sm]. destruct Sb as (is & W & Hg & _). unfold wrote in *.
  destruct (C12_close_frame_once_and_last _ X _ _ _ _ OPEN FA Kf HA) as (is1 & W1 & Cl).
  rewrite (written_unique _ _ _ W1 W) in Cl. clear is1 W1.
  destruct (C21_masking _ X _ _ _ _ OPEN FA HA) as (is1 & W1 & Mk).
  rewrite (written_unique _ _ _ W1 W) in Mk. clear is1 W1.
  assert (Mk' : forall f key, In (Sent f key) is -> is_masked (on_wire f key) = is_server (c_side (e_conn e))).
  { intros f key Hin.
    assert (Hk : match c_side (e_conn o) with CLIENT => key <> None | SERVER => key = None end).
    { destruct (c_side (e_conn o)); [exact (Mk f key Hin)|]. destruct Mk as [_ Mk].
      assert (Hf : In (Sent f key) (filter (fun i => match i with Sent _ _ => true | Eof => false end) is)) by (apply filter_In; auto).
      apply In_nth_error in Hf as (n & Hn). rewrite (Mk n f key Hn). discriminate. }
    destruct (c_side (e_conn e)), (c_side (e_conn o)); try congruence; destruct key as [[[[? ?] ?] ?]|]; try congruence; reflexivity. }
  split; [|split; [exact (ss_data _ _ _ _ _ S)|split; [rewrite <- (ss_written _ _ _ _ _ S), !map_length; reflexivity|]]].
  - split.
    + exact (ss_ok _ _ _ _ _ S).
    + destruct (ss_messages _ _ _ _ _ S) as (done & cur & Ms & _). exists done, cur. exact Ms.
    + intros pre f post Hs Hc. split; [|exact (Cb pre f post Hs Hc)].
      assert (Hp : exists p1 g p2, ps = p1 ++ (f, g) :: p2 /\ map fst p2 = post).
      { clear -Hs. revert pre Hs. induction ps as [|[x y] ps IH]; intros [|z pre] Hs; cbn [map fst app] in Hs; try discriminate.
        - injection Hs as -> Hs. exists [], y, ps. auto.
        - injection Hs as -> Hs. destruct (IH pre Hs) as (p1 & g & p2 & -> & H). exists ((z, y) :: p1), g, p2. auto. }
      destruct Hp as (p1 & g & p2 & Hp & <-).
      assert (Cg : is_close g).
      { pose proof (ss_framing _ _ _ _ _ S) as F. rewrite Hp in F. apply Forall_app in F as [_ F]. inversion F as [|? ? (Fo & _) _]. cbn [fst snd] in Fo. unfold is_close in *. congruence. }
      pose proof (ss_written _ _ _ _ _ S) as Hw. rewrite Hp, map_app in Hw. cbn [map snd] in Hw. rewrite <- Hg in Hw. symmetry in Hw.
      destruct (sent_split is _ g _ Hw) as (is1 & key & is2 & Hi & _ & H2). destruct (Cl is1 g key is2 Hi Cg) as [Cp _].
      apply frames_only_eof in Cp. rewrite Cp in H2. destruct p2; [reflexivity|discriminate H2].
  - exists (filter non_empty (all_writes (e_returned o) (e_state o))). rewrite <- Hg. split; [exact (written_frames _ _ _ W Mk')|]. now rewrite concat_non_empty.
Qed.

(** What an end receives *)
Lemma receives o e fs gs rest : in_use o -> in_use e -> connected e o -> receives_from e o fs gs rest ->
  no_failure (e_calls e) (e_returned e) /\ exists ps Lk l1 l2 q, fs = map fst (l1 ++ l2) /\ ps = l1 ++ l2 /\
    At X (e_conn e) Lk (flat_map delivered_by (e_returned e)) (e_state e) l1 l2 q /\ (rest = [] -> l2 = [] /\ q = []).
Proof.
  intros Uo Ue C R. destruct (sends_stream o e fs gs rest Uo C R) as (St & _ & _ & ws & Wi & Cat).
  destruct C as (Enc & Lk & (E0 & E1 & E2 & E3) & L0 & L1 & L2).
  destruct (sender o Enc Uo E0 E1 E2 E3 fs gs (rf_sent _ _ _ _ _ _ R)) as (ps & -> & S).
  assert (Hf : Fits (c_max_size (e_conn e)) ps).
  { intros before f g later done cur Hp Ms. apply (rf_limit _ _ _ _ _ _ R before f g later done cur); [|exact Ms].
    rewrite <- (ss_written _ _ _ _ _ S), map_combine. exact Hp. }
  rewrite <- (ss_written _ _ _ _ _ S) in Wi.
  destruct Ue as [He Fe Ne _].
  destruct (any_calls X (e_conn e) (e_calls e) ps Lk St Hf (rf_pings _ _ _ _ _ _ R) Ne
     (fun l f g l' exts n => L1 ps _ l f g l' exts n (ss_enc _ _ _ _ _ S)) L2 (fun _ exts _ => Pl exts)
     (e_calls e) [] (start X (parse_body X) (e_conn e)) [] [] ps ws [] rest (e_state e) (e_returned e) eq_refl eq_refl
     (started X (e_conn e) ps Lk Fe L0) eq_refl Wi Cat) as (F & l1 & l2 & q & F1 & F2 & F3).
  - intros -> Q. rewrite Q in Cat. cbn [app] in Cat. split; [|reflexivity].
    destruct ps as [|p ps]; [reflexivity|]. exfalso. cbn [map] in Wi. inversion Wi as [|? w ? ws' (key & L & _) _ Q1 Q2]. subst ws.
    cbn [concat] in Cat. symmetry in Cat. apply app_eq_nil in Cat as [Cat _]. exact (wire_nonempty _ _ _ L Cat).
  - exact He.
  - split; [exact F|]. exists ps, Lk, l1, l2, q. rewrite F1. auto.
Qed.

Lemma reported_frames e Lk l l' q : At X (e_conn e) Lk (flat_map delivered_by (e_returned e)) (e_state e) l l' q -> reported e = map fst l.
Proof. intros [G _ _ _]. unfold reported, all_events. rewrite (gd_events _ _ _ _ _ _ G). apply frames_of_frames. Qed.

Theorem no_failures e o fs gs rest : in_use e -> in_use o -> connected e o -> receives_from e o fs gs rest ->
    no_failure (e_calls e) (e_returned e) /\
    exists later, fs = reported e ++ later /\ (rest = [] -> later = []).
Proof.
  intros Ue Uo C R. destruct (receives o e fs gs rest Uo Ue C R) as (F & ps & Lk & l1 & l2 & q & H1 & _ & H2 & H3).
  split; [exact F|]. exists (map fst l2). rewrite (reported_frames _ _ _ _ _ H2), H1, map_app. split; [reflexivity|].
  intros Q. destruct (H3 Q) as [-> _]. reflexivity.
Qed.
Theorem data_received e o fs gs rest : in_use e -> in_use o -> connected e o -> receives_from e o fs gs rest ->
    exists later, data_sent o = data_frames (reported e) ++ later /\ (rest = [] -> later = []).
Proof.
  intros Ue Uo C R. destruct (sends_stream o e fs gs rest Uo C R) as (_ & <- & _).
  destruct (no_failures e o fs gs rest Ue Uo C R) as (_ & later & H & Hr). exists (data_frames later). rewrite <- data_frames_app, <- H.
  split; [reflexivity|]. intros Q. now rewrite (Hr Q).
Qed.

(** Close frames *)
Lemma sent_exact e fs gs : in_use e -> sent_by e fs gs ->
  forall (I : abs E -> Prop), I (Abs (core (e_conn e)) [] [] Alive) ->
  (forall x y, I x -> astep X (fun k => In k (e_calls e)) x y -> I y) ->
  exists is, sent_frames is = gs /\ I (Abs (core (m_conn (e_state e))) is (all_events (e_returned e) (e_state e)) (phase_of (e_state e))).
Proof.
  intros [He Fe _ _] (is & W & <- & _) I I0 Is.
  destruct (use_inv X _ _ _ _ He OPEN I Fe I0) as (is1 & W1 & H).
  { intros x y _ Hx. exact (Is x y Hx). }
  rewrite (written_unique _ _ _ W1 W) in H. eauto.
Qed.

(* close frames aren't changed by extensions *)
Lemma close_same o e fs gs f : in_use o -> connected e o -> sent_by o fs gs -> is_close f -> (In f fs <-> In f gs).
Proof.
  intros U (Enc & Lk & (E0 & E1 & E2 & E3) & _) Sb Hc. destruct (sender o Enc U E0 E1 E2 E3 fs gs Sb) as (ps & -> & S).
  rewrite <- (ss_written _ _ _ _ _ S). pose proof (ss_framing _ _ _ _ _ S) as F. pose proof (ss_ctrl _ _ _ _ _ S) as C.
  rewrite Forall_forall in F, C. rewrite !in_map_iff.
  assert (Hi : forall x, f_opcode x = CLOSE -> is_ctrl (f_opcode x) = true) by (intros x ->; reflexivity).
  split; intros ([x y] & Hx & Hin); cbn [fst snd] in Hx; exists (x, y); (split; [|exact Hin]); cbn [fst snd].
  - rewrite <- Hx in Hc. rewrite <- Hx. exact (C _ Hin (Hi _ Hc)).
  - rewrite <- Hx in Hc. rewrite <- Hx. symmetry. destruct (F _ Hin) as (Fo & _). cbn [fst snd] in Fo.
    apply (C _ Hin). cbn [fst]. rewrite <- Fo. exact (Hi _ Hc).
Qed.

Lemma closing_sent o e fs gs : in_use o -> connected e o -> sent_by o fs gs -> c_state (m_conn (e_state o)) <> OPEN -> exists f, In f fs /\ is_close f.
Proof.
  intros U C S N. destruct (sent_exact o fs gs U S inv_open) as (is & Hg & H).
  - left. destruct (iu_fresh _ _ _ U) as (So & _). exact So.
  - intros x y Hx. now apply open_step.
  - destruct H as [H|[_ H]]; [contradiction|]. apply Exists_exists in H as (f & Hin & Hc). cbn [a_is] in Hin. rewrite Hg in Hin.
    exists f. split; [|exact Hc]. now apply (close_same o e fs gs f U C S Hc).
Qed.

(* where the payload of a close frame comes from *)
Definition close_origin (K : call -> Prop) (ev : list event) (f : frame) : Prop :=
  (exists code reason, K (CSendClose code reason) /\ close_payload code reason = Ok (f_data f)) \/
  (exists g, In g (frames_of ev) /\ is_close g /\ f_data g = f_data f).
Definition inv_origin (K : call -> Prop) (a : abs E) : Prop :=
  a_ph a = Alive -> forall f, In f (sent_frames (a_is a)) -> is_close f -> close_origin K (a_ev a) f.

Lemma origin_more K ev ev' f : close_origin K ev f -> close_origin K (ev ++ ev') f.
Proof.
  intros [H|(g & Hg & H)]; [now left|right]. exists g. split; [|exact H]. unfold frames_of. rewrite flat_map_app. apply in_or_app. now left.
Qed.
Lemma eof_only_frames (c : conn E) : sent_frames (closing_items c) = [].
Proof. unfold closing_items, eof_items. destruct (is_server (c_side c)), (c_eof_sent c); reflexivity. Qed.
Lemma sendable_same (c : conn E) f exts f' : is_ctrl (f_opcode f) = true -> sendable X c f exts f' -> f' = f.
Proof. intros Hi (_ & _ & En & _). rewrite (Pl _ f Hi) in En. apply pair_equal_spec in En as [_ En]. now apply ok_inj in En. Qed.
Lemma data_not_close (c : conn E) k op data fin exts f' : data_call k = Some (op, data, fin) -> sendable X c (mkframe fin op data) exts f' -> ~ is_close f'.
Proof.
  intros D (_ & _ & En & _) Hc. destruct (encode_keeps X _ _ _ _ Kf En) as (Fo & _). unfold is_close in Hc. rewrite Hc in Fo. cbn in Fo.
  apply data_call_op in D. subst op. discriminate D.
Qed.
Lemma sent_snoc is f k : sent_frames (is ++ [Sent f k]) = sent_frames is ++ [f].
Proof. unfold sent_frames. rewrite flat_map_app. reflexivity. Qed.
Lemma sent_app is is' : sent_frames (is ++ is') = sent_frames is ++ sent_frames is'.
Proof. unfold sent_frames. apply flat_map_app. Qed.

Lemma origin_step K x y : inv_origin K x -> astep X K x y -> inv_origin K y.
Proof.
  intros I S. unfold inv_origin in *.
  destruct S; cbn [a_ph a_is a_ev] in *; intros Al g Hin Hc; try discriminate Al; try subst ph;
  try (match goal with H : sendable _ _ (mkframe true CLOSE _) _ _ |- _ => apply sendable_same in H; [subst f'|reflexivity]
       | H : sendable _ _ (mkframe true PONG _) _ _ |- _ => apply sendable_same in H; [subst f'|reflexivity] end);
  rewrite ?sent_app in Hin; rewrite ?eof_only_frames in Hin; repeat rewrite in_app_iff in Hin; cbn [sent_frames flat_map app In] in Hin;
  try (apply (I eq_refl g Hin Hc));
  try (apply origin_more; exact (I eq_refl g Hin Hc)).
  - destruct Hin as [Hin|[<-|[]]]; [exact (I eq_refl g Hin Hc)|]. exfalso. eapply data_not_close; eassumption.
  - destruct Hin as [Hin|[<-|[]]]; [exact (I eq_refl g Hin Hc)|]. exfalso.
    match goal with H : ctrl_call _ = _ |- _ => apply ctrl_call_op in H end.
    match goal with H : sendable _ _ _ _ _ |- _ => apply sendable_same in H; [subst f'|] end; [|cbn; intuition (subst; reflexivity)].
    unfold is_close in Hc. cbn in Hc. intuition congruence.
  - destruct Hin as [Hin|[[<-|[]]|[]]]; [exact (I eq_refl g Hin Hc)|]. left. exists code, reason. auto.
  - destruct Hin as [Hin|[]]. exact (I eq_refl g Hin Hc).
  - apply origin_more. destruct Hin as [Hin|[<-|[]]]; [exact (I eq_refl g Hin Hc)|]. discriminate Hc.
  - destruct Hin as [Hin|[[<-|[]]|[]]]; [apply origin_more; exact (I eq_refl g Hin Hc)|]. right. exists f. split; [|split; [assumption|reflexivity]].
    unfold frames_of. rewrite flat_map_app. apply in_or_app. right. now left.
Qed.

Lemma payload_code code reason data : close_payload code reason = Ok data -> parse_close data = Ok (code_received code, reason).
Proof.
  destruct code as [x|]; cbn [close_payload code_received].
  - apply C06_close_round_trip.
  - destruct reason; [|discriminate]. intros H. apply ok_inj in H. subst data. reflexivity.
Qed.

Theorem closing_handshake a b fa ga fb gb : in_use a -> in_use b -> connected b a -> connected a b ->
    receives_from b a fa ga [] -> receives_from a b fb gb [] ->
    (exists f, (In f fa \/ In f fb) /\ is_close f) ->
    (no_failure (e_calls a) (e_returned a) /\ no_failure (e_calls b) (e_returned b)) /\
    (reported a = fb /\ reported b = fa) /\
    (c_state (m_conn (e_state a)) = CLOSING /\ c_state (m_conn (e_state b)) = CLOSING) /\
    (exists f code reason, In f fa /\ is_close f /\ parse_close (f_data f) = Ok (code, reason) /\
       close_code b = Some code /\ close_reason b = Some reason) /\
    (exists f code reason, In f fb /\ is_close f /\ parse_close (f_data f) = Ok (code, reason) /\
       close_code a = Some code /\ close_reason a = Some reason) /\
    forall e, e = a \/ e = b ->
      exists m', do_call X (e_state e) CReceiveEof = (m', RNone) /\ c_eof_sent (m_conn m') = true /\
        c_close_code (m_conn m') = close_code e /\ c_close_reason (m_conn m') = close_reason e.
Proof.
  intros Ua Ub Cba Cab Rb Ra Ex.
  destruct (receives a b fa ga [] Ua Ub Cba Rb) as (Fb & psb & Lb & lb & lb' & qb & E1 & _ & E2 & E3). destruct (E3 eq_refl) as [-> ->]. rewrite app_nil_r in E1. 
  destruct (receives b a fb gb [] Ub Ua Cab Ra) as (Fa & psa & La & la & la' & qa & D1 & _ & D2 & D3). destruct (D3 eq_refl) as [-> ->]. rewrite app_nil_r in D1.
  (* an end that received a close frame isn't open *)
  assert (Cl : forall e Lk l q, At X (e_conn e) Lk (flat_map delivered_by (e_returned e)) (e_state e) l [] q ->
     (exists f, In f (map fst l) /\ is_close f) -> c_state (m_conn (e_state e)) <> OPEN).
  { intros e Lk l q [G _ _ _] (f & Hin & Hc) So. destruct (gd_open _ _ _ _ _ _ G So) as [Q _]. rewrite (gd_rcvd _ _ _ _ _ _ G) in Q.
    exact (no_close_yet _ Q f Hin Hc). }
  assert (Ca : exists f, In f fa /\ is_close f).
  { destruct Ex as (f & [Hin|Hin] & Hc); [eauto|]. apply (closing_sent a b fa ga Ua Cba (rf_sent _ _ _ _ _ _ Rb)). apply (Cl a La la [] D2). rewrite <- D1. eauto. }
  assert (Cb : exists f, In f fb /\ is_close f).
  { apply (closing_sent b a fb gb Ub Cab (rf_sent _ _ _ _ _ _ Ra)). apply (Cl b Lb lb [] E2). rewrite <- E1. exact Ca. }
  destruct (sends_stream a b fa ga [] Ua Cba Rb) as (Sa & _). destruct (sends_stream b a fb gb [] Ub Cab Ra) as (Sb & _).
  assert (St : forall e Lk l q, At X (e_conn e) Lk (flat_map delivered_by (e_returned e)) (e_state e) l [] q ->
     (exists f, In f (map fst l) /\ is_close f) -> c_state (m_conn (e_state e)) = CLOSING).
  { intros e Lk l q A C. pose proof (Cl e Lk l q A C) as N. destruct A as [G _ _ _]. destruct (gd_state _ _ _ _ _ _ G); [contradiction|assumption]. }
  assert (Co : forall e Lk l q, At X (e_conn e) Lk (flat_map delivered_by (e_returned e)) (e_state e) l [] q ->
     Stream (map fst l) -> (exists f, In f (map fst l) /\ is_close f) ->
     exists f code reason, In f (map fst l) /\ is_close f /\ parse_close (f_data f) = Ok (code, reason) /\
       close_code e = Some code /\ close_reason e = Some reason).
  { intros e Lk l q [G _ _ _] [Ck _ _] (f & Hin & Hc). rewrite Forall_forall in Ck. destruct (Ck f Hin) as (_ & Gc).
    destruct (Gc Hc) as (code & reason & Pc). exists f, code, reason. split; [exact Hin|]. split; [exact Hc|]. split; [exact Pc|].
    exact (gd_code _ _ _ _ _ _ G f code reason Hin Hc Pc). }
  assert (Te : forall e Lk l, At X (e_conn e) Lk (flat_map delivered_by (e_returned e)) (e_state e) l [] [] ->
     (exists f, In f (map fst l) /\ is_close f) -> exists m', do_call X (e_state e) CReceiveEof = (m', RNone) /\ c_eof_sent (m_conn m') = true /\
        c_close_code (m_conn m') = close_code e /\ c_close_reason (m_conn m') = close_reason e).
  { intros e Lk l A (f & Hin & Hc).
    assert (Cr : c_close_rcvd (m_conn (e_state e)) = true).
    { rewrite (gd_rcvd _ _ _ _ _ _ (at_good _ _ _ _ _ _ _ _ A)). apply existsb_exists. exists f. split; [exact Hin|]. now apply closeb_is. }
    destruct (then_eof X (e_conn e) Lk (flat_map delivered_by (e_returned e)) (e_state e) l A Cr) as (m' & H1 & H2 & _ & H3 & H4).
    exists m'. auto. }
  split; [split; assumption|]. rewrite (reported_frames _ _ _ _ _ D2), (reported_frames _ _ _ _ _ E2).
  rewrite E1 in Sa, Ca |- *. rewrite D1 in Sb, Cb |- *. split; [split; reflexivity|].
  split; [split; [exact (St a _ _ _ D2 Cb)|exact (St b _ _ _ E2 Ca)]|].
  split; [exact (Co b _ _ _ E2 Sa Ca)|]. split; [exact (Co a _ _ _ D2 Sb Cb)|].
  intros e [->| ->]; [exact (Te a _ _ D2 Cb)|exact (Te b _ _ E2 Ca)].
Qed.

Lemma send_close_writes code reason (c c' : conn E) : send_close X code reason c = (c', Ok tt) ->
  exists data w eofs, close_payload code reason = Ok data /\ minimal_layout (on_wire (mkframe true CLOSE data) (conn_key c)) w /\
    c_writes c' = c_writes c ++ w :: eofs /\ Forall (fun x => x = []) eofs.
Proof.
  intros H. unfold send_close in H. destruct (c_expect_cont c); [unfold mraise in H; apply pair_equal_spec in H as [_ H]; discriminate|].
  assert (G : forall data, mseq (send_frame X (mkframe true CLOSE data)) start_closing c = (c', Ok tt) ->
    exists w eofs, minimal_layout (on_wire (mkframe true CLOSE data) (conn_key c)) w /\
      c_writes c' = c_writes c ++ w :: eofs /\ Forall (fun x => x = []) eofs).
  { intros data Q. unfold mseq at 1 in Q.
    destruct (send_frame_step X (mkframe true CLOSE data) c) as [(exts & e & S & _)|(f' & exts & w & S & Sd & L)]; rewrite S in Q.
    { apply pair_equal_spec in Q as [_ Q]. discriminate. }
    apply sendable_same in Sd; [subst f'|reflexivity]. exists w.
    unfold start_closing, mseq, mupd, mret, send_eof in Q. cbn [c_side set_state c_eof_sent] in Q.
    destruct (is_server _).
    - destruct (c_eof_sent _); apply pair_equal_spec in Q as [<- Q]; [discriminate|].
      exists [SEND_EOF]. split; [exact L|]. cbn [c_writes set_writes set_eof_sent set_state]. rewrite after_send_writes, <- app_assoc. split; [reflexivity|].
      repeat constructor.
    - apply pair_equal_spec in Q as [<- _]. exists []. split; [exact L|]. cbn [c_writes set_state]. rewrite after_send_writes. split; [reflexivity|constructor]. }
  unfold close_payload. destruct code as [x|].
  - destruct (serialize_close x reason) as [data|e]; [|unfold mraise in H; apply pair_equal_spec in H as [_ H]; discriminate].
    destruct (G data H) as (w & eofs & H1 & H2). exists data, w, eofs. auto.
  - destruct reason; [|unfold mraise in H; apply pair_equal_spec in H as [_ H]; discriminate].
    destruct (G [] H) as (w & eofs & H1 & H2). exists [], w, eofs. auto.
Qed.

Lemma send_close_sent e fs gs code reason : in_use e -> sent_by e fs gs -> called_send_close e code reason ->
  exists f, In f gs /\ is_close f /\ parse_close (f_data f) = Ok (code_received code, reason).
Proof.
  intros [He Fe _ _] (is & W & <- & _) C. destruct (combine_split _ _ _ _ C) as (ks1 & ks2 & rs1 & rs2 & Hk & Hr & L).
  unfold wrote in W. rewrite Hk, do_calls_app in He. destruct Fe as (_ & _ & _ & _ & _ & _ & Hev & Hw & _).
  destruct (do_calls X (start X (parse_body X) (e_conn e)) ks1) as [m1 rs1'] eqn:D1.
  cbn [do_calls] in He. destruct (do_call X m1 (CSendClose code reason)) as [m2 r2] eqn:D2.
  destruct (do_calls X m2 ks2) as [m3 rs3] eqn:D3. apply pair_equal_spec in He as [Hm He]. rewrite Hr in He.
  assert (L1 : length rs1' = length ks1) by (pose proof (do_calls_length X ks1 (start X (parse_body X) (e_conn e))) as Q; rewrite D1 in Q; exact Q).
  destruct (app_same_length rs1' (r2 :: rs3) rs1 (RNone :: rs2)) as [-> Q]; [lia|exact He|]. injection Q as -> ->.
  (* the writes after the call *)
  pose proof D2 as Dc. cbn [do_call] in Dc. unfold on_conn in Dc. destruct (send_close X code reason (m_conn m1)) as [c' r] eqn:Sc.
  apply pair_equal_spec in Dc as [Dm Dr]. destruct r as [[]|]; [|discriminate].
  destruct (send_close_writes code reason (m_conn m1) c' Sc) as (data & w & eofs & P & Lw & Wr & Eo).
  destruct (resume X (e_conn e) ks1 m1 rs1 [CSendClose code reason] m2 [RNone] Hev Hw D1) as (is1 & l & _ & W1 & _ & _ & _).
  { cbn [do_calls]. now rewrite D2. }
  assert (W2 : written (all_writes (rs1 ++ [RNone]) m2) (is1 ++ Sent (mkframe true CLOSE data) (conn_key (m_conn m1)) :: map (fun _ => Eof) eofs)).
  { unfold all_writes in *. rewrite <- Dm. cbn [m_conn]. rewrite Wr, flat_map_app. cbn [flat_map written_by]. rewrite app_nil_r, app_assoc.
    apply Forall2_app; [exact W1|]. constructor; [exact Lw|]. clear -Eo. induction Eo as [|x eofs H _ IH]; constructor; [exact H|exact IH]. }
  destruct (resume X (e_conn e) (ks1 ++ [CSendClose code reason]) m2 (rs1 ++ [RNone]) ks2 m3 rs2 Hev Hw) as (is2 & l2 & _ & W3 & W4 & _).
  { rewrite do_calls_app, D1. cbn [do_calls]. now rewrite D2. }
  { exact D3. }
  rewrite (written_unique _ _ _ W3 W2) in W4. rewrite <- app_assoc in W4. cbn [app] in W4.
  rewrite <- Hm, Hr in W. rewrite (written_unique _ _ _ W W4).
  exists (mkframe true CLOSE data). split; [|split; [reflexivity|exact (payload_code _ _ _ P)]].
  rewrite <- app_assoc, sent_app. apply in_or_app. right. now left.
Qed.

Theorem same_code a b fa ga fb gb code reason : in_use a -> in_use b -> connected b a -> connected a b ->
    receives_from b a fa ga [] -> receives_from a b fb gb [] ->
    called_send_close a code reason -> (forall code' reason', ~ In (CSendClose code' reason') (e_calls b)) ->
    close_code a = Some (code_received code) /\ close_reason a = Some reason /\
    close_code b = Some (code_received code) /\ close_reason b = Some reason.
Proof.
  intros Ua Ub Cba Cab Rb Ra Ca Nb.
  destruct (send_close_sent a fa ga code reason Ua (rf_sent _ _ _ _ _ _ Rb) Ca) as (f0 & H1 & H2 & H3).
  apply (close_same a b fa ga f0 Ua Cba (rf_sent _ _ _ _ _ _ Rb) H2) in H1.
  destruct (closing_handshake a b fa ga fb gb Ua Ub Cba Cab Rb Ra) as (_ & (Pa & Pb) & _ & (f & cb & rb & F1 & F2 & F3 & F4 & F5) & (g & ca & ra & G1 & G2 & G3 & G4 & G5) & _).
  { exists f0. auto. }
  destruct (receives a b fa ga [] Ua Ub Cba Rb) as (_ & psb & Lb & lb & lb' & qb & _ & _ & Atb & _).
  (* close frames sent by an end are all the same *)
  assert (One : forall x y, In x fa -> In y fa -> is_close x -> is_close y -> x = y).
  { intros x y Hx Hy Cx Cy. destruct (sends_stream a b fa ga [] Ua Cba Rb) as ([_ _ Sc] & _).
    apply in_split in Hx as (l1 & l2 & Hx). destruct (Sc l1 x l2 Hx Cx) as [-> _]. rewrite Hx in Hy. apply in_app_iff in Hy as [Hy|[Hy|[]]]; [|exact Hy].
    apply in_split in Hy as (l3 & l4 & ->). rewrite <- app_assoc in Hx. destruct (Sc l3 y (l4 ++ [x]) Hx Cy) as [N _]. now destruct l4. }
  (* the one that b sent is an echo *)
  assert (Og : close_origin (fun k => In k (e_calls b)) (all_events (e_returned b) (e_state b)) g).
  { destruct Atb as [_ _ _ (p & P & _)]. destruct (sent_exact b fb gb Ub (rf_sent _ _ _ _ _ _ Ra) (inv_origin (fun k => In k (e_calls b)))) as (is & Hs & H).
    - intros _ h' [].
    - intros x y. apply origin_step.
    - unfold inv_origin, phase_of in H. rewrite P in H. cbn [a_ph a_is a_ev] in H. apply H; [reflexivity| |exact G2].
      rewrite Hs. now apply (close_same b a fb gb g Ub Cab (rf_sent _ _ _ _ _ _ Ra) G2). }
  destruct Og as [(c & r & H & _)|(h & Hh & Hc & Hd)]; [exfalso; exact (Nb c r H)|].
  change (frames_of (all_events (e_returned b) (e_state b))) with (reported b) in Hh. rewrite Pb in Hh.
  rewrite (One h f0 Hh H1 Hc H2) in Hd. rewrite (One f f0 F1 H1 F2 H2), H3 in F3. rewrite <- Hd, H3 in G3.
  apply ok_inj, pair_equal_spec in F3 as [<- <-]. apply ok_inj, pair_equal_spec in G3 as [<- <-]. auto.
Qed.
End Generic.

(** For examples *)
Definition endpoint_of {E} (X : ext_ops E) (c0 : conn E) (ks : list call) : endpoint E :=
  Endpoint E c0 ks (fst (do_calls X (start X (parse_body X) c0) ks)) (snd (do_calls X (start X (parse_body X) c0) ks)).
Lemma names_size (fs : list frame) : forall gs : list frame, message_size (map fst (combine fs gs)) <= message_size fs.
Proof.
  induction fs as [|f fs IH]; intros [|g gs]; cbn [combine map fst]; try (unfold message_size; cbn; lia). specialize (IH gs).
  unfold message_size in *. cbn [flat_map]. rewrite !app_length. lia.
Qed.
Lemma part_size f fs : In f fs -> length (f_data f) <= message_size fs.
Proof. intros H. apply in_split in H as (a & z & ->). unfold message_size. rewrite flat_map_app, app_length. cbn [flat_map]. rewrite app_length. lia. Qed.
Lemma small_enough m fs gs : (Z.of_nat (message_size fs + message_size gs) <= m)%Z -> within_limit (Some m) fs gs.
Proof.
  intros L before f g later done cur H (D & _). cbn [fits].
  assert (G : forall l, message_size (data_frames l) <= message_size l).
  { induction l as [|x l IH]; [reflexivity|]. unfold message_size, data_frames in *. cbn [filter flat_map]. destruct (is_data_b x); cbn [flat_map]; rewrite ?app_length; lia. }
  specialize (G (map fst before)). rewrite D in G. pose proof (names_size fs gs) as Ns. rewrite H, map_app in Ns. cbn [map fst] in Ns.
  assert (Hg : In g gs) by (apply (in_combine_r fs gs f g); rewrite H; apply in_or_app; right; now left). apply part_size in Hg.
  unfold message_size in *. rewrite flat_map_app, app_length in G, Ns. cbn [flat_map] in Ns. rewrite app_length in Ns. lia.
Qed.
Lemma no_pings {E} (X : ext_ops E) c0 ks fs : Forall (fun f => f_opcode f <> PING) fs -> no_ping_while_closing X c0 ks fs.
Proof. intros H ks1 code reason ks2 m1 rs1 m2 later f _ _ _ -> Hin. apply Forall_app in H as [_ H]. rewrite Forall_forall in H. auto. Qed.
Lemma in_use_of {E} (X : ext_ops E) size c0 ks : fresh OPEN c0 -> ~ In CReceiveEof ks ->
  Forall (fun k => match k with CSendText d _ | CSendBinary d _ | CSendContinuation d _ => (lenN d <? size)%N = true | _ => True end) ks ->
  in_use X size (endpoint_of X c0 ks).
Proof.
  intros F N S. split; [apply surjective_pairing|exact F|exact N|]. cbn [e_calls endpoint_of]. intros data fin Hin. rewrite Forall_forall in S.
  destruct Hin as [Hin|[Hin|Hin]]; apply S in Hin; now apply N.ltb_lt.
Qed.
Lemma written_item mask k0 k1 k2 k3 f w ws is : wire f mask [k0; k1; k2; k3] = Ok w -> written ws is ->
  written (w :: ws) (Sent f (if mask then Some (k0, k1, k2, k3) else None) :: is).
Proof. intros S W. constructor; [|exact W]. apply wire_layout in S; [|reflexivity]. destruct mask; exact S. Qed.
Lemma sent_of {E} (e : endpoint E) ws is data gs fs : wrote e = ws -> written ws is -> data_sent e = data -> sent_frames is = gs -> restored gs data = fs -> sent_by e fs gs.
Proof. intros <- W <- H1 H2. exists is. auto. Qed.
