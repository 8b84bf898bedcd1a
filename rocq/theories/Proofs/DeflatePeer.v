(* Reading the compressed frames that another endpoint of this library writes. *)
From Verif Require Import Base.Prelude Base.PreludeFacts Base.Utf8 Model.Streams Model.Frames Model.PermessageDeflate
  Model.LegacyFraming Model.LegacyProtocol Spec.Rfc6455 Spec.FrameSpec Spec.Messages Spec.Deflate Spec.Asyncio Spec.AsyncioFailures
  Proofs.StreamsFacts Proofs.FramesFacts Proofs.ParserFacts Proofs.WireUnique Proofs.DeflateFacts Proofs.DeflateRun Proofs.DeflateEnds
  Proofs.LegacyRead Proofs.LegacyDeflate Proofs.LegacyPeer Properties.FrameCodec.
Local Open Scope N_scope.

Lemma truncates_reports zl sync : truncates zl sync -> reports_limit zl sync.
Proof.
  intros T c d data c1 x c2 y limit d' out S0 Hx Hy L H.
  destruct (T c d data c1 x c2 y limit S0 Hx Hy L) as (d2 & out2 & H2 & U). rewrite H in H2.
  apply pair_equal_spec in H2 as [<- _]. exact U.
Qed.

Section Peer.
Context {zl : zlib} (sync : z_comp zl -> z_decomp zl -> Prop).
Context (Zc : correct_zlib zl sync) (Tr : truncates zl sync).
Notation X := (pmd_ops zl).
Implicit Types p q : pmd zl.

Lemma data_too_big p q f f2 c d m : p_encoder p = Some c -> p_decoder q = Some d -> sync c d ->
  f_fin f2 = f_fin f -> ~ allows (Some m) f -> (0 < m)%Z ->
  f_data f2 = f_data (match snd (encode_data p f) with Ok g => g | Raise _ => f end) ->
  exists msg, snd (decode_data q f2 (Some m)) = Raise (PayloadTooBig msg).
Proof.
  intros Hc Hd S0 Hf Al Nz Hg. unfold encode_data in *. rewrite Hc in *.
  destruct (z_compress zl c (f_data f)) as [c1 x] eqn:Ex. destruct (z_flush zl c1) as [c2 y] eqn:Ey. cbn [fst snd] in *.
  destruct (zc_round_trip zl sync Zc c d (f_data f) c1 x c2 y S0 Ex Ey) as [[z Hz] _]. cbn [replace_data f_data] in Hg.
  unfold decode_data. rewrite Hd.
  replace (if f_fin f2 then f_data f2 ++ empty_block else f_data f2) with (x ++ y).
  2: { rewrite Hf, Hg. destruct (f_fin f); cbn [andb]; [|reflexivity]. rewrite Hz, ends_with_app. rewrite app_length. cbn [length empty_block].
       replace (length z + 4 - 4)%nat with (length z + 0)%nat by lia. rewrite firstn_app_2. cbn. now rewrite app_nil_r. }
  unfold decompress. destruct (Z.ltb_spec m 0); [lia|].
  destruct (Tr c d (f_data f) c1 x c2 y m S0 Ex Ey) as (d' & out & De & U); [unfold allows in Al; lia|].
  rewrite De. destruct (z_unconsumed zl d'); [contradiction|]. eexists. reflexivity.
Qed.
Lemma frame_too_big in_msg p q f m g : linked sync in_msg p q -> ~ allows (Some m) f -> (0 < m)%Z -> is_ctrl (f_opcode f) = false ->
  in_msg = opcode_eqb (f_opcode f) CONT -> snd (pmd_encode p f) = Ok g -> exists msg, snd (pmd_decode q g (Some m)) = Raise (PayloadTooBig msg).
Proof.
  intros [Nct Bi Co De Ct Sy] Al Nz Ctl Hm He. unfold pmd_encode in He. rewrite Ctl in He.
  assert (V : forall p f g, snd (encode_data p f) = Ok g -> g = replace_data f (f_data g)).
  { clear. intros p f g. unfold encode_data. destruct (p_encoder p) as [c|]; [|discriminate]. destruct (z_compress zl c (f_data f)) as [c1 x].
    destruct (z_flush zl c1) as [c2 y]. intros H. apply ok_inj in H. subst g. reflexivity. }
  destruct (opcode_eqb (f_opcode f) CONT) eqn:Cn; cbn [negb] in He.
  - subst in_msg. destruct (Sy (or_intror Hm)) as (c & d & Hc & Hd & S0). pose proof (V _ _ _ He) as Vg.
    unfold pmd_decode. rewrite Vg. cbn [replace_data f_opcode f_fin]. rewrite Ctl, Cn, Hm. cbn [negb].
    apply (data_too_big p _ f _ c d m Hc); [destruct (f_fin f); exact Hd|exact S0|reflexivity|exact Al|exact Nz|now rewrite He].
  - assert (Op : exists c p1, p_encoder p1 = Some c /\ snd (encode_data p1 (replace_rsv1 f true)) = Ok g /\
        exists d, (if p_remote_nct q then z_decompressobj zl (p_remote_bits q) = Ok d else p_decoder q = Some d) /\ sync c d).
    { rewrite <- Nct. destruct (p_local_nct p) eqn:Np.
      - destruct Co as [c Hc], De as [d Hd]. rewrite Hc in He. exists c, (set_encoder p (Some c)). split; [reflexivity|]. split; [exact He|].
        exists d. split; [exact Hd|]. eapply zc_start; eassumption.
      - destruct (Sy (or_introl eq_refl)) as (c & d & Hc & Hd & S0). exists c, p. eauto. }
    destruct Op as (c & p1 & Hc & He1 & d & Hd & S0). pose proof (V _ _ _ He1) as Vg. clear He.
    unfold pmd_decode. rewrite Vg. unfold replace_rsv1. cbn [replace_data f_opcode f_fin f_rsv1 f_data f_rsv2 f_rsv3 replace_rsv1]. rewrite Ctl, Cn. cbn [negb].
    set (q0 := if negb (f_fin f) then set_decode_cont q true else q).
    assert (Q : p_remote_nct q0 = p_remote_nct q /\ p_remote_bits q0 = p_remote_bits q /\ p_decoder q0 = p_decoder q)
      by (unfold q0; destruct (negb (f_fin f)); repeat split).
    clearbody q0. destruct Q as (Q1 & Q2 & Q3). rewrite Q1, Q2. destruct (p_remote_nct q).
    + rewrite Hd. apply (data_too_big p1 _ (replace_rsv1 f true) _ c d m Hc); [reflexivity|exact S0|reflexivity|exact Al|exact Nz|now rewrite He1].
    + apply (data_too_big p1 _ (replace_rsv1 f true) _ c d m Hc); [congruence|exact S0|reflexivity|exact Al|exact Nz|now rewrite He1].
Qed.
(* a frame is decoded, or it's too big *)
Lemma decode_outcome in_msg p q f n g : linked sync in_msg p q -> f_rsv1 f = false ->
  (is_ctrl (f_opcode f) = false -> in_msg = opcode_eqb (f_opcode f) CONT) ->
  snd (pmd_encode p f) = Ok g -> (forall m, n = Some m -> (0 <= m)%Z) ->
  snd (pmd_decode q g n) = Ok f \/
  ((exists msg, snd (pmd_decode q g n) = Raise (PayloadTooBig msg)) /\ ~ fits n (length (f_data f))).
Proof.
  intros Lk R1 Hm He Nn.
  destruct (is_ctrl (f_opcode f)) eqn:Ctl.
  { left. unfold pmd_encode in He. rewrite Ctl in He. cbn [snd] in He. apply ok_inj in He as <-.
    unfold pmd_decode. rewrite Ctl. reflexivity. }
  assert (Dec : allows n f \/ n = Some 0%Z \/ exists m, n = Some m /\ ~ allows n f /\ (0 < m)%Z).
  { unfold allows. destruct n as [m|]; [|auto]. specialize (Nn m eq_refl). destruct (Z.eq_dec m 0) as [->|Nm]; [auto|].
    destruct (Z.le_gt_cases (lenZ (f_data f)) m); [auto|]. right. right. exists m. split; [reflexivity|]. lia. }
  assert (Hm' : is_ctrl (f_opcode f) = false -> in_msg = opcode_eqb (f_opcode f) CONT) by (intros _; exact (Hm eq_refl)).
  destruct Dec as [Al|[-> |(m & -> & Nal & Np)]].
  - left. destruct (frame_round_trip sync Zc in_msg p q f n Lk R1 Al Hm') as (g' & H1 & H2 & _).
    rewrite He in H1. apply ok_inj in H1 as <-. exact H2.
  - left. destruct (frame_round_trip sync Zc in_msg p q f None Lk R1 Logic.I Hm') as (g' & H1 & H2 & _).
    rewrite He in H1. apply ok_inj in H1 as <-. destruct (pmd_decode q g None) as [q1 r1] eqn:Q. cbn [snd] in H2. subst r1.
    now rewrite (zero_limit q g q1 f Q).
  - right. split; [exact (frame_too_big in_msg p q f m g Lk Nal Np Ctl (Hm eq_refl) He)|]. exact Nal.
Qed.

(* The first of the compressed frames *)
Lemma first_encoded in_msg p l gs : legal in_msg l -> Forall (fun f => f_rsv1 f = false) l -> Forall (fun f => check f = Ok tt) l ->
  encodes p l = map Ok gs ->
  forall g gs', gs = g :: gs' -> exists f l', l = f :: l' /\ f_rsv1 f = false /\ check f = Ok tt /\
    (is_ctrl (f_opcode f) = false -> in_msg = opcode_eqb (f_opcode f) CONT) /\ snd (pmd_encode p f) = Ok g.
Proof.
  intros Le Rs Ck En g gs' ->. destruct l as [|f l']; [discriminate|]. cbn [encodes map] in En. injection En as E1 _.
  inversion Rs; subst. inversion Ck; subst. exists f, l'. split; [reflexivity|]. split; [assumption|]. split; [assumption|].
  split; [|assumption]. cbn [legal] in Le. intros C. rewrite C in Le. apply Le.
Qed.
(* Reading from a stream which starts with a compressed frame: it's read, or it's too big *)
Lemma read_whole_compressed in_msg p q mask max f g w rest :
  linked sync in_msg p q -> f_rsv1 f = false -> check f = Ok tt -> (is_ctrl (f_opcode f) = false -> in_msg = opcode_eqb (f_opcode f) CONT) ->
  snd (pmd_encode p f) = Ok g -> framed mask g w ->
  (exists r ex, run (legacy_read X mask max) {| r_buffer := w ++ rest; r_eof := false |} [q] = ODone f r ex) \/
  ((exists msg r ex, run (legacy_read X mask max) {| r_buffer := w ++ rest; r_eof := false |} [q] = OFail (PayloadTooBig msg) r ex) /\
   (~ fits max (length (f_data f)) \/ ~ fits max (length (f_data g)))).
Proof.
  intros Lk Rf Cf Hm He (k & L & M).
  change (legacy_read X) with (frame_parse X). unfold frame_parse, parse_frame. rewrite run_gbind.
  destruct (parse_wire_layout mask max (on_wire g k) w rest {| r_buffer := w ++ rest; r_eof := false |} [q] L eq_refl) as (res & V & R).
  assert (Kd : kind_of_opcode (w_opcode (on_wire g k)) <> None) by (destruct (f_opcode g) eqn:O; cbn; rewrite O; discriminate).
  destruct V as [V|V1 V2|m V1 V2 -> V4|f0 key V1 V2 V3]; [contradiction|congruence| |].
  - destruct R as (r' & R). rewrite R. right. split; [do 3 eexists; reflexivity|]. right. exact V4.
  - rewrite R. clear R. assert (f0 = g) as -> by (destruct f0, g; unfold on_wire in V3; cbn in V3; injection V3; intros; subst; f_equal; destruct f_opcode, f_opcode0; try reflexivity; discriminate).
    cbn [obind get_state put_state gbind run glift]. rewrite decode_one. cbn [fst snd].
    assert (Nn : forall m, max = Some m -> (0 <= m)%Z) by (intros m ->; cbn in V2; lia).
    destruct (decode_outcome in_msg p q f max g Lk Rf Hm He Nn) as [D|[(msg & D) Nf]]; rewrite D.
    + cbn [glift gbind run]. rewrite Cf. cbn [glift gbind run]. left. do 2 eexists. reflexivity.
    + cbn [glift gbind run]. right. split; [do 3 eexists; reflexivity|]. now left.
Qed.
Lemma read_flowing_compressed in_msg p q mask max buf fl wl l gs :
  linked sync in_msg p q -> legal in_msg l -> Forall (fun f => f_rsv1 f = false) l -> Forall (fun f => check f = Ok tt) l ->
  encodes p l = map Ok gs -> Forall2 (framed mask) gs wl -> concat wl = buf ++ fl ->
  (forall e r ex, run (legacy_read X mask max) {| r_buffer := buf; r_eof := false |} [q] = OFail e r ex ->
     exists f l' g gs' msg, l = f :: l' /\ gs = g :: gs' /\ e = PayloadTooBig msg /\
       (~ fits max (length (f_data f)) \/ ~ fits max (length (f_data g)))) /\
  (forall g r ex, fl = [] -> run (legacy_read X mask max) {| r_buffer := buf; r_eof := false |} [q] = OSusp g r ex -> l = []).
Proof.
  intros Lk Le Rs Ck En F Cc. pose proof (first_encoded in_msg p l gs Le Rs Ck En) as Hd. split.
  - intros e r ex R1.
    assert (Lv : StreamsFacts.live (legacy_read X mask max)) by (change (legacy_read X) with (frame_parse X); apply live_parse_frame).
    pose proof (run_feed (legacy_read X mask max) {| r_buffer := buf; r_eof := false |} [q] fl (live_live_at _ _ Lv) eq_refl) as Fd.
    rewrite R1 in Fd. destruct Fd as [Fd _]. unfold grow in Fd. cbn [r_buffer r_eof] in Fd. rewrite <- Cc in Fd.
    destruct F as [|g w' gs wl Fg F].
    { cbn [concat] in Cc. exfalso. destruct buf; [|discriminate]. clear - R1. revert R1.
      unfold legacy_read, legacy_read_wire. cbn. discriminate. }
    destruct (Hd g gs eq_refl) as (f & l' & -> & Rf & Cf & Hm & He). cbn [concat] in Fd.
    destruct (read_whole_compressed in_msg p q mask max f g w' (concat wl) Lk Rf Cf Hm He Fg) as [(r0 & ex0 & R)|[(msg & r0 & ex0 & R) Nf]];
      rewrite R in Fd; [discriminate|]. injection Fd as <- _ _. exists f, l', g, gs, msg. auto.
  - intros g0 r ex -> Run. rewrite app_nil_r in Cc. destruct F as [|g w' gs wl Fg F].
    { destruct l; [reflexivity|discriminate]. }
    exfalso. destruct (Hd g gs eq_refl) as (f & l' & -> & Rf & Cf & Hm & He). cbn [concat] in Cc. subst buf.
    destruct (read_whole_compressed in_msg p q mask max f g w' (concat wl) Lk Rf Cf Hm He Fg) as [(r0 & ex0 & R)|[(msg & r0 & ex0 & R) _]];
      rewrite R in Run; discriminate.
Qed.

(* Reading from a stream which holds the beginning of the compressed frames *)
Lemma read_next_compressed in_msg p q mask max buf eof fl wl l gs :
  linked sync in_msg p q -> legal in_msg l -> Forall (fun f => f_rsv1 f = false) l -> Forall (fun f => check f = Ok tt) l ->
  encodes p l = map Ok gs -> Forall2 (framed mask) gs wl -> concat wl = buf ++ fl ->
  (forall f r ex, run (legacy_read X mask max) {| r_buffer := buf; r_eof := eof |} [q] = ODone f r ex ->
     exists l', l = f :: l') /\
  (forall e r ex, run (legacy_read X mask max) {| r_buffer := buf; r_eof := eof |} [q] = OFail e r ex ->
     e = EOFError \/ (exists f l' g gs' msg, l = f :: l' /\ gs = g :: gs' /\ e = PayloadTooBig msg /\
       (~ fits max (length (f_data f)) \/ ~ fits max (length (f_data g))))).
Proof.
  intros Lk Le Rs Ck En F Cc. pose proof (first_encoded in_msg p l gs Le Rs Ck En) as Hd. split.
  - intros f r ex Run. apply legacy_read_done in Run as (g & w & Q1 & (key & Q2 & Q3) & De). cbn [r_buffer] in Q1.
    destruct F as [|g' w' gs wl (k & L & M) F].
    + cbn [concat] in Cc. rewrite Q1 in Cc. apply layout_nonempty in Q2. destruct w; [contradiction|discriminate].
    + cbn [concat] in Cc. rewrite Q1, <- app_assoc in Cc.
      destruct (layout_unique g' k w' _ g key w _ L Q2 (eq_trans M (eq_sym Q3)) Cc) as [-> _].
      destruct (Hd g gs eq_refl) as (f' & l' & -> & R1 & _ & Hm & He). exists l'. f_equal.
      rewrite decode_one in De. apply pair_equal_spec in De as [_ De].
      symmetry. apply (frame_decoded sync Zc (truncates_reports _ _ Tr) in_msg p q f' max g f Lk R1 Hm He De).
  - intros e r ex Run. destruct (run_ends _ _ _ _ _ _ (ends_read X mask max) Run) as [->|(r1 & R1)]; [now left|].
    unfold flowing in R1. cbn [r_buffer] in R1. right.
    exact (proj1 (read_flowing_compressed in_msg p q mask max buf fl wl l gs Lk Le Rs Ck En F Cc) _ _ _ R1).
Qed.
End Peer.

(* the zlib of the examples *)
From Verif Require Import Proofs.StoredZlib.
Lemma inflate_stops data : forall n, (n < length data)%nat -> exists r,
  inflate IHead (flat_map (fun x => [Byte.x00; Byte.x01; Byte.x00; Byte.xfe; Byte.xff; x]) data ++ Byte.x00 :: empty_block) (Some n) = Ok r.
Proof.
  induction data as [|x data IH]; intros n Hn; [cbn in Hn; lia|]. cbn [flat_map app]. destruct n as [|n].
  - set (more := flat_map _ data ++ _).
    change (inflate IHead _ (Some 0%nat)) with (Ok (ICopy 1, @nil byte, x :: more)). eauto.
  - change (inflate IHead _ (Some (Datatypes.S n))) with
      (let! (st', out, tail) := inflate IHead (flat_map (fun x => [Byte.x00; Byte.x01; Byte.x00; Byte.xfe; Byte.xff; x]) data ++ Byte.x00 :: empty_block) (Some n) in
       Ok (st', x :: out, tail)).
    destruct (IH n) as ([[st out] tail] & ->); [cbn [length] in Hn; lia|]. cbn [rbind]. eauto.
Qed.
Lemma stored_truncates : truncates stored_zlib stored_sync.
Proof.
  intros c d data c1 x c2 y limit S0 Hc Hf Hl. pose proof (stored_reports c d data c1 x c2 y limit) as R.
  pose proof Hc as Hc'. pose proof Hf as Hf'. cbn in Hc, Hf. apply pair_equal_spec in Hc as [<- <-]. apply pair_equal_spec in Hf as [<- <-].
  destruct (inflate_stops data (Z.to_nat limit)) as ([[st out] tail] & Q); [unfold lenZ in Hl; lia|].
  exists (st, tail), out.
  assert (De : z_decompress stored_zlib d (flat_map (fun x => [Byte.x00; Byte.x01; Byte.x00; Byte.xfe; Byte.xff; x]) data ++ Byte.x00 :: empty_block) limit =
    ((st, tail), Ok out)).
  { cbn [z_decompress stored_zlib]. unfold stored_sync in S0. rewrite S0. cbn [resume]. destruct (Z.eqb_spec limit 0); [lia|]. now rewrite Q. }
  split; [exact De|]. exact (R _ _ S0 Hc' Hf' Hl De).
Qed.
