(* Reading the frames that another endpoint of this library writes. *)
From Verif Require Import Base.Prelude Base.PreludeFacts Base.Utf8 Model.Streams Model.Frames
  Model.LegacyFraming Model.LegacyProtocol Spec.Rfc6455 Spec.FrameSpec Spec.Messages Spec.Utf8Spec Spec.Asyncio
  Proofs.StreamsFacts Proofs.FramesFacts Proofs.ParserFacts Proofs.Utf8SpecFacts Proofs.WireUnique
  Proofs.LegacyShapes Proofs.LegacyFields Proofs.LegacyClose Proofs.LegacyQueue
  Proofs.LegacyMessages Proofs.LegacyFragments Proofs.LegacyTiming Proofs.LegacyWriters Proofs.LegacySend
  Proofs.LegacyAuthors Proofs.LegacyEndToEnd Proofs.LegacyWire Proofs.LegacyCloseOrigin
  Properties.FrameCodec Properties.AsyncioState Properties.AsyncioMessages Properties.AsyncioCalls Properties.AsyncioSends.
Local Open Scope N_scope.

(** The end of the stream *)
Fixpoint ends {S A} (g : gen S A) : Prop :=
  match g with
  | GRet _ | GRaise _ => True
  | GReadExact _ k => k (Raise EOFError) = GRaise EOFError /\ forall r, ends (k r)
  | GGet k => forall x, ends (k x)
  | GPut _ k => ends k
  | _ => False
  end.
Definition flowing (r : reader) : reader := {| r_buffer := r_buffer r; r_eof := false |}.
Lemma run_ends {S A} (g : gen S A) : forall r x e r' x', ends g -> run g r x = OFail e r' x' ->
  e = EOFError \/ exists r'', run g (flowing r) x = OFail e r'' x'.
Proof.
  induction g as [a|e0|p k IH|n k IH|k IH|k IH|k IH|y k IH|k IH]; intros r x e r' x' P H; cbn [ends run] in *; try contradiction.
  - discriminate.
  - injection H as -> -> ->. right. eauto.
  - destruct P as [P1 P2]. destruct (n <? 0)%Z; [apply (IH _ r x e r' x' (P2 _) H)|].
    change (r_buffer (flowing r)) with (r_buffer r). destruct (lenZ (r_buffer r) <? n)%Z.
    + destruct (r_eof r); [|discriminate]. rewrite P1 in H. cbn [run] in H. injection H as -> _ _. now left.
    + apply (IH _ _ x e r' x' (P2 _) H).
  - apply (IH _ _ _ _ _ _ (P x) H).
  - apply (IH _ _ _ _ _ P H).
Qed.
Lemma ends_bind {S A B} (g : gen S A) (f : A -> gen S B) : ends g -> (forall a, ends (f a)) -> ends (gbind g f).
Proof.
  intros H K. induction g; cbn [ends gbind] in *; auto. destruct H as [H1 H2]. split; [now rewrite H1|auto].
Qed.
Lemma ends_lift {S A} (r : result A) : ends (@glift S A r).
Proof. destruct r; exact Logic.I. Qed.
Lemma ends_exact {S} n : ends (@read_exact S n).
Proof. cbn. split; [reflexivity|]. intros. apply ends_lift. Qed.
Lemma ends_read {E} (X : ext_ops E) mask max : ends (legacy_read X mask max).
Proof.
  unfold legacy_read. apply ends_bind.
  - unfold legacy_read_wire. apply ends_bind; [apply ends_exact|].
    intros [|x1 [|x2 [|]]]; try exact Logic.I.
    destruct (opcode_of_N _); [|exact Logic.I]. destruct (negb _); [exact Logic.I|].
    apply ends_bind.
    { destruct (_ =? 126); [|destruct (_ =? 127)]; try exact Logic.I;
      (apply ends_bind; [apply ends_exact|intros; exact Logic.I]). }
    intros n. apply ends_bind.
    { destruct max; [destruct (_ <? _)%Z|]; exact Logic.I. }
    intros _. apply ends_bind; [destruct mask; [apply ends_exact|exact Logic.I]|]. intros mb.
    apply ends_bind; [apply ends_exact|]. intros d.
    apply ends_bind; [destruct mask; [apply ends_lift|exact Logic.I]|]. intros; exact Logic.I.
  - intros f. cbn. intros exts. destruct (decode_reversed X exts f max) as [ex r]. cbn.
    apply ends_bind; [apply ends_lift|]. intros g. apply ends_bind; [apply ends_lift|]. intros; exact Logic.I.
Qed.

(** What was written and isn't read yet *)
Lemma frames_remain mask fs ws fs' ws' rest :
  Forall2 (framed mask) fs ws -> Forall2 (framed mask) fs' ws' -> concat ws = concat ws' ++ rest ->
  exists later wl, fs = fs' ++ later /\ Forall2 (framed mask) later wl /\ concat wl = rest.
Proof.
  intros F F'. revert fs ws F. induction F' as [|f' w' fs' ws' (k' & L' & M') F' IH]; intros fs ws F H; [now exists fs, ws|].
  destruct F as [|f w fs ws (k & L & M) F].
  - cbn [concat] in H. symmetry in H. apply layout_nonempty in L'. destruct w'; [contradiction|discriminate].
  - cbn [concat] in H. rewrite <- app_assoc in H.
    destruct (layout_unique f k w _ f' k' w' _ L L' (eq_trans M (eq_sym M')) H) as [-> H'].
    destruct (IH fs ws F H') as (later & wl & -> & Q). now exists later, wl.
Qed.

(* Reading from a stream which holds the beginning of frame g and of what follows *)
Lemma read_next {E} (X : ext_ops E) mask max buf eof fl wl later :
  Forall2 (framed mask) later wl -> concat wl = buf ++ fl -> Forall (fun f => check f = Ok tt) later ->
  (forall f r ex, run (legacy_read X mask max) {| r_buffer := buf; r_eof := eof |} [] = ODone f r ex ->
     exists later', later = f :: later') /\
  (forall e r ex, run (legacy_read X mask max) {| r_buffer := buf; r_eof := eof |} [] = OFail e r ex ->
     e = EOFError \/ (exists f later' msg, later = f :: later' /\ e = PayloadTooBig msg /\ ~ fits max (length (f_data f)))).
Proof.
  intros F Cc Ck. split.
  - intros f r ex Run. change (legacy_read X) with (frame_parse X) in Run.
    apply C05_accepted_frames_were_received in Run as (w & key & Q1 & Q2 & _ & Q4 & _).
    destruct F as [|g w' later wl (k & L & M) F].
    + cbn [concat] in Cc. rewrite Q1 in Cc. apply layout_nonempty in Q2. destruct w; [contradiction|discriminate].
    + cbn [concat] in Cc. rewrite Q1, <- app_assoc in Cc.
      destruct (layout_unique g k w' _ f key w _ L Q2 (eq_trans M (eq_sym Q4)) Cc) as [-> _]. now exists later.
  - intros e r ex Run. destruct (run_ends _ _ _ _ _ _ (ends_read X mask max) Run) as [->|(r1 & R1)]; [now left|].
    unfold flowing in R1. cbn [r_buffer] in R1.
    assert (Lv : StreamsFacts.live (legacy_read X mask max)) by (change (legacy_read X) with (frame_parse X); apply live_parse_frame).
    pose proof (run_feed (legacy_read X mask max) {| r_buffer := buf; r_eof := false |} [] fl (live_live_at _ _ Lv) eq_refl) as Fd.
    rewrite R1 in Fd. destruct Fd as [Fd _]. unfold grow in Fd. cbn [r_buffer r_eof] in Fd. rewrite <- Cc in Fd.
    destruct F as [|g w' later wl (k & L & M) F].
    { cbn [concat] in Cc. exfalso. destruct buf; [|discriminate]. clear - R1. revert R1.
      unfold legacy_read, legacy_read_wire. cbn. discriminate. }
    right. exists g, later. inversion Ck as [|? ? Cg _]; subst. cbn [concat] in Fd.
    change (legacy_read X) with (frame_parse X) in Fd.
    destruct (C05_frame_acceptance E X (is_masked (on_wire g k)) max _ _ (concat wl) false L) as [Ok Bad].
    assert (Ac : acceptable (on_wire g k)) by (apply check_acceptable; exact Cg).
    assert (D : fits max (length (f_data g)) \/ ~ fits max (length (f_data g))).
    { unfold fits. destruct max; [|now left]. destruct (Z.le_gt_cases (Z.of_nat (length (f_data g))) z); [now left|right; lia]. }
    destruct D as [D|D].
    + destruct Ok as (f & _ & R); [split; [exact Ac|]; split; [reflexivity|exact D]|]. rewrite R in Fd. discriminate.
    + destruct Bad as (e' & r' & De & R); [intros (_ & _ & Q); exact (D Q)|].
      rewrite R in Fd. injection Fd as -> _ _. revert De. unfold documented_error.
      destruct Ac as (_ & _ & _ & Kd & _). destruct (kind_of_opcode _); [|contradiction].
      rewrite Bool.eqb_reflx. cbn [negb orb].
      intros [[Q _]|[_ (msg & ->)]]; [contradiction|]. exists msg. split; [reflexivity|]. split; [reflexivity|exact D].
Qed.

(** Messages sent by this library *)
Definition sound (m : list frame) : Prop :=
  forall f r, m = f :: r -> f_opcode f = TEXT -> Forall (fun g => valid_utf8 (f_data g)) m.
Lemma sound_prefix m m' : sound (m ++ m') -> sound m.
Proof. intros H f r -> T. specialize (H f (r ++ m') eq_refl T). now apply Forall_app in H. Qed.
Lemma content_valid d op data : content d op data -> op = TEXT -> valid_utf8 data.
Proof. destruct d; cbn [content]; intros C T; [destruct C as [_ C]; eexists; exact C|destruct C as [C _]; congruence|contradiction]. Qed.
Lemma fragments_sound op items fs : fragments op items fs ->
  (exists f r, fs = f :: r /\ f_opcode f = op) /\ (op = TEXT -> Forall (fun g => valid_utf8 (f_data g)) fs).
Proof.
  unfold fragments. destruct items as [|d items]; [contradiction|]. destruct fs as [|f rest]; [contradiction|].
  intros ((data & C & ->) & H). split; [now exists (mkframe false op data), rest|]. intros T.
  constructor; [exact (content_valid _ _ _ C T)|].
  induction H as [|d' f items' fs (data' & C' & ->) _ IH]; constructor; [exact (content_valid _ _ _ C' T)|exact IH].
Qed.
Lemma sends_part_sound m items ws : sends_part m items ws -> sound ws.
Proof.
  assert (Fr : forall op items' fs, fragments op items' fs -> forall more, Forall (fun g => valid_utf8 (f_data g)) more ->
    sound (fs ++ more)).
  { intros op items' fs F more Vm f r Ef T. apply fragments_sound in F as [(g & r' & -> & Og) V].
    injection Ef as -> _. apply Forall_app. split; [apply V; congruence|exact Vm]. }
  assert (Al : (exists op first, fragments op items first /\ ws = first ++ [mkframe true CONT []]) -> sound ws).
  { intros (op & first & F & ->). apply (Fr _ _ _ F). constructor; [|constructor]. exists []. constructor. }
  intros [->|[H|[_ (op & done & rest & _ & F)]]].
  - intros f r Q. discriminate.
  - destruct m as [d| | | |]; try contradiction.
    + destruct H as (op & data & C & ->). intros f r Q T. injection Q as <- <-. constructor; [|constructor].
      exact (content_valid _ _ _ C T).
    + destruct H as [[_ ->]|Q]; [intros f r Q; discriminate|now apply Al].
    + destruct H as [[_ ->]|Q]; [intros f r Q; discriminate|now apply Al].
  - rewrite <- (app_nil_r ws). apply (Fr _ _ _ F). constructor.
Qed.

Section A.
Context {E : Type} (X : ext_ops E) (cfg : config) (exts : list E).
Implicit Type st : conn E.
Lemma call_sound ls st l1 a l2 f rest w : exec X cfg (initial exts) ls = Some st ->
  datas (p_out st) = l1 ++ a ++ l2 -> map o_frame a = f :: rest -> opens f -> all_by w a -> sound (map o_frame a).
Proof.
  intros H D Ef O W.
  destruct (Authors_exec X cfg exts ls st H) as (_ & _ & Au).
  assert (Ha : exists x a', a = x :: a') by (destruct a as [|x a']; [discriminate|eauto]).
  destruct Ha as (x & a' & Ea).
  destruct (Au x) as (i & m & Bx & Hi); [rewrite D, Ea; apply in_or_app; right; now left|].
  assert (w = ByCall i) as -> by (rewrite Ea in W; inversion W; congruence).
  pose proof (call_sends X cfg exts ls st i m H Hi) as Sp.
  assert (Fd : filter (by_ i) (p_out st) = filter (by_ i) l1 ++ a ++ filter (by_ i) l2).
  { rewrite by_datas; [rewrite D, !filter_app, (by_all i a W); reflexivity|].
    change (map o_frame (filter (by_ i) (p_out st))) with (written_by (ByCall i) st). apply Forall_forall. intros g Hg.
    apply in_split in Hg as (pre & post & Eg). now apply (sends_part_frames m _ _ pre g post Sp). }
  assert (Ws : written_by (ByCall i) st = map o_frame (filter (by_ i) l1) ++ map o_frame a ++ map o_frame (filter (by_ i) l2)).
  { unfold written_by. change (filter (fun x0 => if writer_eq_dec (o_by x0) (ByCall i) then true else false) (p_out st))
      with (filter (by_ i) (p_out st)). rewrite Fd, !map_app. reflexivity. }
  assert (L1 : map o_frame (filter (by_ i) l1) = []).
  { refine (proj1 (proj2 (sends_part_frames m _ _ _ f (rest ++ map o_frame (filter (by_ i) l2)) Sp _)) O).
    rewrite Ws, Ef. reflexivity. }
  apply sends_part_sound in Sp. rewrite Ws, L1 in Sp. cbn [app] in Sp. now apply sound_prefix in Sp.
Qed.
Definition one_message (m : list frame) : Prop := (complete_message m \/ unfinished_message m) /\ sound m.
Lemma sent_messages ls st : execution X cfg exts ls st -> no_overlap X cfg exts ls ->
  exists done cur, data_frames (map o_frame (p_out st)) = concat done ++ cur /\
    Forall complete_message done /\ Forall one_message done /\ (cur = [] \/ unfinished_message cur /\ one_message cur).
Proof.
  intros H N. destruct (C60_not_interleaved_partial E X cfg exts ls st H N) as (dA & cur & DA & WA & CA).
  exists (map (map o_frame) dA), (map o_frame cur). split; [rewrite data_frames_map, DA, map_app, concat_map; reflexivity|].
  split; [apply Forall_map; eapply Forall_impl; [|exact WA]; now intros a [? _]|].
  assert (First : forall m, complete_message m \/ unfinished_message m -> exists f r, m = f :: r /\ opens f).
  { intros m [[(f & -> & O & _)|(m' & g & -> & (f & r & -> & O & _) & _)]|(f & r & -> & O & _)];
      [now exists f, []|now exists f, (r ++ [g])|now exists f, r]. }
  split.
  - assert (G : forall pre tl, datas (p_out st) = pre ++ concat dA ++ tl -> Forall one_message (map (map o_frame) dA)).
    { clear CA DA. induction WA as [|a dA [Ca (w & Wa)] WA IH]; intros pre tl D; cbn [map]; constructor.
      - cbn [concat] in D. rewrite <- app_assoc in D. destruct (First _ (or_introl Ca)) as (f & r & Ef & O).
        split; [now left|]. exact (call_sound ls st pre a _ f r w H D Ef O Wa).
      - apply (IH (pre ++ a) tl). rewrite D. cbn [concat]. now rewrite !app_assoc. }
    exact (G [] cur DA).
  - destruct CA as [->|(w & U & Wa)]; [now left|right]. split; [exact U|]. split; [now right|].
    destruct (First _ (or_intror U)) as (f & r & Ef & O).
    apply (call_sound ls st (concat dA) cur [] f r w H); auto. now rewrite app_nil_r.
Qed.
End A.

(* the next data frame belongs to the message which is being read *)
Lemma next_in_message dB rest f x dA cur :
  Forall complete_message dB -> Forall complete_message dA -> Forall one_message dA ->
  (cur = [] \/ unfinished_message cur /\ one_message cur) -> (rest = [] \/ unfinished_message rest) ->
  concat dB ++ rest ++ f :: x = concat dA ++ cur -> exists post, one_message (rest ++ f :: post).
Proof.
  intros FB FA OA Hc Hr H.
  assert (Hc' : cur = [] \/ unfinished_message cur) by tauto.
  destruct (messages_prefix dB (rest ++ f :: x) dA cur FB FA Hc' H) as (later & ->).
  rewrite concat_app, <- app_assoc in H. apply app_inv_head in H. apply Forall_app in FA as [_ FA]. apply Forall_app in OA as [_ OA].
  destruct later as [|m later]; cbn [concat app] in H.
  - subst cur. destruct Hc as [Q|[_ Q]]; [destruct rest; discriminate|eauto].
  - inversion FA as [|? ? Cm _]; subst. inversion OA as [|? ? Om _]; subst. rewrite <- app_assoc in H.
    assert (Nm : m <> []) by (intros ->; destruct Cm as [(g & Q & _)|(m' & g & Q & _)]; [discriminate|destruct m'; discriminate]).
    apply app_eq_app in H as (l & [[Q1 Q2]|[Q1 Q2]]).
    + destruct l as [|g l].
      * rewrite app_nil_r in Q1. subst rest. destruct Hr as [->|Hr]; [contradiction|].
        exfalso. refine (complete_not_unfinished m [] _ Cm _ Hr). apply app_nil_r.
      * exfalso. destruct Hr as [->|Hr]; [destruct m; discriminate|].
        exact (complete_not_unfinished m (g :: l) _ Cm (eq_sym Q1) Hr).
    + destruct l as [|g l].
      * rewrite app_nil_r in Q1. subst m. destruct Hr as [->|Hr]; [contradiction|].
        exfalso. refine (complete_not_unfinished rest [] _ Cm _ Hr). apply app_nil_r.
      * injection Q2 as -> _. exists l. now rewrite <- Q1.
Qed.
Lemma later_continues m g r f post : complete_message m \/ unfinished_message m -> m = (g :: r) ++ f :: post -> f_opcode f = CONT.
Proof.
  intros C ->. cbn [app] in C.
  assert (Fr : forall post g' l, g :: r ++ f :: post = g' :: l -> Forall (fun h => continues h /\ ~ final h) l -> f_opcode f = CONT).
  { clear. intros post g' l Q F. injection Q as _ <-. apply Forall_app in F as [_ F]. inversion F as [|? ? [K _] _]; subst. exact K. }
  destruct C as [[(h & Q & _)|(m' & h & Q & (g' & l & -> & _ & _ & F) & K & _)]|(g' & l & Q & _ & _ & F)].
  - injection Q as _ Q. destruct r; discriminate.
  - destruct post as [|p post _] using rev_ind.
    + change (g :: r ++ [f]) with ((g :: r) ++ [f]) in Q. apply app_inj_tail in Q as [_ ->]. exact K.
    + change (g :: r ++ f :: post ++ [p]) with ((g :: r) ++ (f :: post) ++ [p]) in Q. rewrite app_assoc in Q.
      apply app_inj_tail in Q as [Q _]. exact (Fr _ g' l Q F).
  - exact (Fr _ g' l Q F).
Qed.
Lemma valid_concat l : Forall (fun g => valid_utf8 (f_data g)) l -> valid_utf8 (flat_map f_data l).
Proof.
  induction 1 as [|g l [t T] _ [t' T']]; [exists []; constructor|]. exists (t ++ t'). cbn [flat_map]. now apply utf8_text_app.
Qed.
Lemma reads_message cfg c rest f post e : context cfg c rest -> one_message (rest ++ f :: post) -> read_message cfg c f <> RExn e.
Proof.
  intros Cx [Cm Sd] Q. destruct c as [|chunks pending max|chunks max]; cbn [context] in Cx.
  - subst rest. cbn [app] in *. cbn [read_message] in Q.
    assert (O : opens f).
    { destruct Cm as [[(g & Q' & O & _)|(m' & g & Q' & (h & l & -> & O & _) & _)]|(g & l & Q' & O & _)]; injection Q' as <- _; exact O. }
    assert (V : f_opcode f = TEXT -> valid_utf8 (f_data f)).
    { intros T. specialize (Sd f post eq_refl T). now inversion Sd. }
    destruct O as [T|T]; rewrite T in Q.
    + specialize (V T). destruct (f_fin f) eqn:Ff.
      * destruct V as [t V]. apply utf8_decode_spec in V. rewrite V in Q. discriminate.
      * unfold text_chunk in Q. rewrite Ff in Q. destruct (utf8_inc_decode [] (f_data f) false) as [p [t|e']] eqn:D; [discriminate|].
        destruct (inc_decode_fails [] [] [] _ false p e' [] text_so_far_nil D) as [Nv _]; [discriminate|].
        apply Nv. cbn [app]. now rewrite app_nil_r.
    + destruct (f_fin f) eqn:Ff; [discriminate|]. unfold binary_chunk in Q. rewrite Ff in Q. discriminate.
  - destruct Cx as ((g & r & -> & T) & _ & Ts & _). pose proof (later_continues _ g r f post Cm eq_refl) as Op.
    cbn [read_message] in Q. rewrite Op in Q. unfold text_chunk in Q.
    specialize (Sd g (r ++ f :: post) eq_refl T). apply Forall_app in Sd as [S1 S2]. inversion S2 as [|? ? Sf _]; subst.
    assert (V : valid_utf8 (flat_map f_data (g :: r) ++ f_data f)).
    { destruct (valid_concat _ S1) as [t1 V1]. destruct Sf as [t2 V2]. exists (t1 ++ t2). now apply utf8_text_app. }
    destruct (f_fin f) eqn:Ff;
      (destruct (utf8_inc_decode pending (f_data f) _) as [p [t|e']] eqn:D; [discriminate|];
       destruct (inc_decode_fails _ _ _ _ _ p e' [] Ts D) as [Nv _]; [reflexivity|]; apply Nv; now rewrite app_nil_r).
  - destruct Cx as ((g & r & -> & T) & _). pose proof (later_continues _ g r f post Cm eq_refl) as Op.
    cbn [read_message] in Q. rewrite Op in Q. unfold binary_chunk in Q. destruct (f_fin f); discriminate.
Qed.
