(* Facts about Model/PermessageDeflate.v: encoding and decoding frames. *)
From Verif Require Import Base.Prelude Base.PreludeFacts Model.Utils Model.Frames Model.Connection Model.Handshake Model.PermessageDeflate
  Spec.Messages Spec.History Spec.Deflate Proofs.DeflateFacts.
Local Open Scope Z_scope.

(* ---- legal sequences, frame by frame ---- *)

Fixpoint legal (in_msg : bool) (l : list frame) : Prop :=
  match l with
  | [] => True
  | f :: r => if is_ctrl (f_opcode f) then legal in_msg r
              else in_msg = opcode_eqb (f_opcode f) CONT /\ legal (negb (f_fin f)) r
  end.
Lemma legal_data l : forall b, legal b (data_frames l) -> legal b l.
Proof.
  induction l as [|f l IH]; intros b; [auto|]. unfold data_frames. cbn [filter legal]. fold (data_frames l). unfold is_data_b.
  destruct (f_opcode f) eqn:O; cbn [is_ctrl legal]; rewrite ?O; cbn [is_ctrl]; try (intros [H H']; split; auto); auto.
Qed.
Lemma legal_conts r : Forall (fun g => continues g /\ ~ final g) r -> forall l, legal true l -> legal true (r ++ l).
Proof.
  induction 1 as [|g r [C F] _ IH]; intros l L; [exact L|]. cbn [app legal]. rewrite C. cbn [is_ctrl]. split; [reflexivity|].
  destruct (f_fin g) eqn:Fi; [now exfalso; apply F|]. now apply IH.
Qed.
Lemma legal_unfinished m l : unfinished_message m -> legal true l -> legal false (m ++ l).
Proof.
  intros (f & rest & -> & O & F & C) L. cbn [app legal].
  assert (is_ctrl (f_opcode f) = false /\ opcode_eqb (f_opcode f) CONT = false) as [-> ->] by (destruct O as [-> | ->]; split; reflexivity).
  split; [reflexivity|]. destruct (f_fin f) eqn:Fi; [now exfalso; apply F|]. now apply legal_conts.
Qed.
Lemma legal_complete m l : complete_message m -> legal false l -> legal false (m ++ l).
Proof.
  intros [(f & -> & O & F)|(m' & g & -> & U & C & F)] L.
  - cbn [app legal]. assert (is_ctrl (f_opcode f) = false /\ opcode_eqb (f_opcode f) CONT = false) as [-> ->] by (destruct O as [-> | ->]; split; reflexivity).
    rewrite F. split; [reflexivity|exact L].
  - rewrite <- app_assoc. apply legal_unfinished; [exact U|]. cbn [app legal]. rewrite C, F. cbn [is_ctrl]. split; [reflexivity|exact L].
Qed.
Lemma legal_messages l : well_formed_messages l -> legal false l.
Proof.
  intros (done & cur & D & F & C). apply legal_data. rewrite D. clear D.
  assert (Lc : legal false cur) by (destruct C as [-> |C]; [exact Logic.I|rewrite <- (app_nil_r cur); apply legal_unfinished; [exact C|exact Logic.I]]).
  induction F as [|m done Hm _ IH]; [exact Lc|]. cbn [concat]. rewrite <- app_assoc. apply legal_complete; [exact Hm|exact IH].
Qed.

Section Run.
Context {zl : zlib}.
Notation ops := (pmd_ops zl).
Implicit Types p q : pmd zl.

(* ---- encoding and decoding are independent ---- *)

Definition same_enc p p' : Prop :=
  p_local_nct p = p_local_nct p' /\ p_local_bits p = p_local_bits p' /\ p_settings p = p_settings p' /\ p_encoder p = p_encoder p'.
Definition same_dec p p' : Prop :=
  p_remote_nct p = p_remote_nct p' /\ p_remote_bits p = p_remote_bits p' /\ p_decoder p = p_decoder p' /\ p_decode_cont p = p_decode_cont p'.
Lemma same_enc_refl p : same_enc p p. Proof. repeat split. Qed.
Lemma same_dec_refl p : same_dec p p. Proof. repeat split. Qed.
Lemma same_enc_trans p p' p'' : same_enc p p' -> same_enc p' p'' -> same_enc p p''.
Proof. unfold same_enc. intuition congruence. Qed.
Lemma same_dec_trans p p' p'' : same_dec p p' -> same_dec p' p'' -> same_dec p p''.
Proof. unfold same_dec. intuition congruence. Qed.

Local Ltac sm := unfold same_enc, same_dec in *; cbn; intuition congruence.
Lemma encode_data_same p p' f : same_enc p p' -> snd (encode_data p f) = snd (encode_data p' f) /\ same_enc (fst (encode_data p f)) (fst (encode_data p' f)).
Proof.
  intros (A & B & C & D). unfold encode_data. rewrite D. destruct (p_encoder p') as [c|] eqn:Ep; [|split; [reflexivity|cbn [fst]; sm]].
  destruct (z_compress zl c (f_data f)) as [c1 x]. destruct (z_flush zl c1) as [c2 y]. rewrite A. cbn [fst snd]. split; [reflexivity|].
  destruct (f_fin f && p_local_nct p'); sm.
Qed.
Lemma encode_data_dec p f : same_dec (fst (encode_data p f)) p.
Proof.
  unfold encode_data. destruct (p_encoder p) as [c|]; [|apply same_dec_refl]. destruct (z_compress zl c (f_data f)) as [c1 x]. destruct (z_flush zl c1) as [c2 y].
  cbn [fst]. destruct (f_fin f && p_local_nct p); sm.
Qed.
Lemma encode_same p p' f : same_enc p p' -> snd (pmd_encode p f) = snd (pmd_encode p' f) /\ same_enc (fst (pmd_encode p f)) (fst (pmd_encode p' f)).
Proof.
  intros S0. pose proof S0 as (A & B & C & D). unfold pmd_encode. destruct (is_ctrl (f_opcode f)); [split; [reflexivity|exact S0]|]. destruct (negb (opcode_eqb (f_opcode f) CONT)); [|now apply encode_data_same].
  rewrite A, B, C. destruct (p_local_nct p') eqn:Np; [|now apply encode_data_same].
  destruct (z_compressobj zl (p_local_bits p') (p_settings p')) as [c|]; [|split; [reflexivity|exact S0]]. apply encode_data_same. sm.
Qed.
Lemma encode_dec p f : same_dec (fst (pmd_encode p f)) p.
Proof.
  unfold pmd_encode. destruct (is_ctrl (f_opcode f)); [apply same_dec_refl|]. destruct (negb (opcode_eqb (f_opcode f) CONT)); [|apply encode_data_dec].
  destruct (p_local_nct p); [|apply encode_data_dec]. destruct (z_compressobj zl (p_local_bits p) (p_settings p)); [|apply same_dec_refl].
  eapply same_dec_trans; [apply encode_data_dec|]. sm.
Qed.

Lemma decode_data_same p p' f n : same_dec p p' -> snd (decode_data p f n) = snd (decode_data p' f n) /\ same_dec (fst (decode_data p f n)) (fst (decode_data p' f n)).
Proof.
  intros (A & B & C & D). unfold decode_data. rewrite C. destruct (p_decoder p') as [d|] eqn:Ep; [|split; [reflexivity|cbn [fst]; sm]].
  destruct (decompress d _ _) as [d' [x|e]]; [|split; [reflexivity|sm]].
  destruct (z_unconsumed zl d'); [|split; [reflexivity|sm]]. rewrite A. split; [reflexivity|]. cbn [fst]. destruct (f_fin f && p_remote_nct p'); sm.
Qed.
Lemma decode_data_enc p f n : same_enc (fst (decode_data p f n)) p.
Proof.
  unfold decode_data. destruct (p_decoder p) as [d|]; [|apply same_enc_refl].
  destruct (decompress d _ _) as [d' [x|e]]; [|sm]. destruct (z_unconsumed zl d'); [|sm]. cbn [fst]. destruct (f_fin f && p_remote_nct p); sm.
Qed.
Lemma decode_same p p' f n : same_dec p p' -> snd (pmd_decode p f n) = snd (pmd_decode p' f n) /\ same_dec (fst (pmd_decode p f n)) (fst (pmd_decode p' f n)).
Proof.
  intros S0. pose proof S0 as (A & B & C & D). unfold pmd_decode. destruct (is_ctrl (f_opcode f)); [split; [reflexivity|exact S0]|]. destruct (opcode_eqb (f_opcode f) CONT).
  - rewrite D. destruct (p_decode_cont p'); cbn [negb]; [|auto]. apply decode_data_same. destruct (f_fin f); sm.
  - destruct (negb (f_rsv1 f)); [split; [reflexivity|exact S0]|]. cbn [f_fin replace_rsv1].
    assert (S1 : same_dec (if negb (f_fin f) then set_decode_cont p true else p) (if negb (f_fin f) then set_decode_cont p' true else p'))
      by (destruct (negb (f_fin f)); sm).
    destruct S1 as (A1 & B1 & C1 & D1). rewrite A1, B1. destruct (p_remote_nct (if negb (f_fin f) then set_decode_cont p' true else p')) eqn:Nq.
    + destruct (z_decompressobj zl _) as [d|]; [apply decode_data_same; sm|split; [reflexivity|sm]].
    + apply decode_data_same. sm.
Qed.
Lemma decode_enc p f n : same_enc (fst (pmd_decode p f n)) p.
Proof.
  unfold pmd_decode. destruct (is_ctrl (f_opcode f)); [apply same_enc_refl|]. destruct (opcode_eqb (f_opcode f) CONT).
  - destruct (negb (p_decode_cont p)); [apply same_enc_refl|]. eapply same_enc_trans; [apply decode_data_enc|]. destruct (f_fin f); sm.
  - destruct (negb (f_rsv1 f)); [apply same_enc_refl|]. set (p1 := if negb (f_fin (replace_rsv1 f false)) then set_decode_cont p true else p).
    assert (S1 : same_enc p1 p) by (unfold p1; destruct (negb _); sm).
    destruct (p_remote_nct p1); [destruct (z_decompressobj zl (p_remote_bits p1)); [|exact S1]|];
      (eapply same_enc_trans; [apply decode_data_enc|]); [|exact S1]. eapply same_enc_trans; [|exact S1]. sm.
Qed.

Fixpoint encodes p (l : list frame) : list (result frame) :=
  match l with [] => [] | f :: r => snd (pmd_encode p f) :: encodes (fst (pmd_encode p f)) r end.
Fixpoint decodes p (l : list (frame * option Z)) : list (result frame) :=
  match l with [] => [] | (f, n) :: r => snd (pmd_decode p f n) :: decodes (fst (pmd_decode p f n)) r end.

Lemma encodes_same l : forall p p', same_enc p p' -> encodes p l = encodes p' l.
Proof.
  induction l as [|f l IH]; intros p p' S0; [reflexivity|]. cbn [encodes]. destruct (encode_same p p' f S0) as [-> S1]. f_equal. now apply IH.
Qed.
Lemma decodes_same l : forall p p', same_dec p p' -> decodes p l = decodes p' l.
Proof.
  induction l as [|[f n] l IH]; intros p p' S0; [reflexivity|]. cbn [decodes]. destruct (decode_same p p' f n S0) as [-> S1]. f_equal. now apply IH.
Qed.
Lemma uses_encodes l : forall p, results_of true l (uses ops p l) = encodes p (encoded l).
Proof.
  induction l as [|u l IH]; intros p; [reflexivity|]. destruct u as [f|f n]; cbn [uses ext_encode ext_decode pmd_ops].
  - rewrite (surjective_pairing (pmd_encode p f)). unfold results_of, encoded. cbn [combine filter fst is_encode Bool.eqb map snd flat_map app encodes].
    f_equal. apply IH.
  - rewrite (surjective_pairing (pmd_decode p f n)). unfold results_of, encoded. cbn [combine filter fst is_encode Bool.eqb map snd flat_map app].
    rewrite <- (encodes_same _ _ _ (decode_enc p f n)). apply IH.
Qed.
Lemma uses_decodes l : forall p, results_of false l (uses ops p l) = decodes p (decoded l).
Proof.
  induction l as [|u l IH]; intros p; [reflexivity|]. destruct u as [f|f n]; cbn [uses ext_encode ext_decode pmd_ops].
  - rewrite (surjective_pairing (pmd_encode p f)). unfold results_of, decoded. cbn [combine filter fst is_encode Bool.eqb map snd flat_map app].
    rewrite <- (decodes_same _ _ _ (encode_dec p f)). apply IH.
  - rewrite (surjective_pairing (pmd_decode p f n)). unfold results_of, decoded. cbn [combine filter fst is_encode Bool.eqb map snd flat_map app decodes].
    f_equal. apply IH.
Qed.

(* ---- round trip ---- *)

Section RoundTrip.
Context (sync : z_comp zl -> z_decomp zl -> Prop) (Zc : correct_zlib zl sync).

(* p encodes what q decodes; in_msg: a message is in progress *)
Record linked (in_msg : bool) p q : Prop := {
  lk_nct : p_local_nct p = p_remote_nct q;
  lk_bits : p_local_bits p <= p_remote_bits q;
  lk_comp : can_compress zl (p_local_bits p) (p_settings p);
  lk_decomp : exists d, z_decompressobj zl (p_remote_bits q) = Ok d;
  lk_cont : p_decode_cont q = in_msg;
  lk_sync : p_local_nct p = false \/ in_msg = true -> exists c d, p_encoder p = Some c /\ p_decoder q = Some d /\ sync c d }.

Lemma ends_with_app z x : ends_with (z ++ x) x = true.
Proof.
  unfold ends_with. rewrite app_length. replace (length x <=? length z + length x)%nat with true by (symmetry; apply Nat.leb_le; lia).
  replace (length z + length x - length x)%nat with (length z) by lia. rewrite skipn_app, skipn_all, Nat.sub_diag. cbn. now apply bytes_eqb_eq.
Qed.

(* after the start of the message: p has an encoder, q has a decoder *)
Lemma data_round_trip p q f f2 c d n : p_encoder p = Some c -> p_decoder q = Some d -> sync c d ->
  p_local_nct p = p_remote_nct q -> f_fin f2 = f_fin f -> allows n f ->
  f_data f2 = f_data (match snd (encode_data p f) with Ok g => g | Raise _ => f end) ->
  exists c' d', snd (encode_data p f) = Ok (replace_data f (f_data f2)) /\
    fst (encode_data p f) = set_encoder p (if f_fin f && p_local_nct p then None else Some c') /\
    decode_data q f2 n = (set_decoder q (if f_fin f && p_local_nct p then None else Some d'), Ok (replace_data f2 (f_data f))) /\
    sync c' d'.
Proof.
  intros Hc Hd S0 Nct Hf Al Hg. unfold encode_data in *. rewrite Hc in *.
  destruct (z_compress zl c (f_data f)) as [c1 x] eqn:Ex. destruct (z_flush zl c1) as [c2 y] eqn:Ey. cbn [fst snd] in *.
  destruct (zc_round_trip zl sync Zc c d (f_data f) c1 x c2 y S0 Ex Ey) as [[z Hz] Rt].
  set (n' := match n with None => 0 | Some m => m end).
  destruct (Rt n') as (d' & De & Un & S1). { unfold allows in Al. subst n'. destruct n; auto. }
  exists c2, d'. cbn [replace_data f_data] in Hg. rewrite Hg. split; [reflexivity|].
  split; [destruct (f_fin f && p_local_nct p); reflexivity|]. split; [|exact S1].
  unfold decode_data. rewrite Hd. fold n'.
  replace (if f_fin f2 then f_data f2 ++ empty_block else f_data f2) with (x ++ y).
  2: { rewrite Hf, Hg. destruct (f_fin f); cbn [andb]; [|reflexivity]. rewrite Hz, ends_with_app. rewrite app_length. cbn [length empty_block].
       replace (length z + 4 - 4)%nat with (length z + 0)%nat by lia. rewrite firstn_app_2. cbn. now rewrite app_nil_r. }
  assert (Pos : (n' <? 0) = false). { unfold allows, lenZ in Al. subst n'. destruct n; [lia|reflexivity]. }
  unfold decompress. rewrite Pos, De, Un, Hf, <- Nct. destruct (f_fin f && p_local_nct p); reflexivity.
Qed.

Lemma frame_round_trip in_msg p q f n : linked in_msg p q -> f_rsv1 f = false -> allows n f ->
  (is_ctrl (f_opcode f) = false -> in_msg = opcode_eqb (f_opcode f) CONT) ->
  exists g, snd (pmd_encode p f) = Ok g /\ snd (pmd_decode q g n) = Ok f /\
    linked (if is_ctrl (f_opcode f) then in_msg else negb (f_fin f)) (fst (pmd_encode p f)) (fst (pmd_decode q g n)).
Proof.
  intros [Nct Bi Co De Ct Sy] R1 Al Hm. unfold pmd_encode. destruct (is_ctrl (f_opcode f)) eqn:Ctl.
  - exists f. unfold pmd_decode. rewrite Ctl. split; [reflexivity|]. split; [reflexivity|]. now constructor.
  - specialize (Hm eq_refl). destruct (opcode_eqb (f_opcode f) CONT) eqn:Cn; cbn [negb].
    + subst in_msg. destruct (Sy (or_intror Hm)) as (c & d & Hc & Hd & S0).
      set (g := match snd (encode_data p f) with Ok g => g | Raise _ => f end).
      set (q1 := if f_fin f then set_decode_cont q false else q).
      destruct (data_round_trip p q1 f (replace_data f (f_data g)) c d n Hc) as (c' & d' & H1 & H2 & H3 & H4);
        [unfold q1; destruct (f_fin f); exact Hd|exact S0|unfold q1; destruct (f_fin f); exact Nct|reflexivity|exact Al|reflexivity|].
      exists (replace_data f (f_data g)). cbn [replace_data f_data] in H1. split; [exact H1|].
      unfold pmd_decode. cbn [replace_data f_opcode f_fin]. rewrite Ctl, Cn, Hm. cbn [negb]. fold q1.
      change (Frame (f_fin f) (f_opcode f) (f_data g) (f_rsv1 f) (f_rsv2 f) (f_rsv3 f)) with (replace_data f (f_data g)).
      rewrite H3. cbn [snd fst]. split; [destruct f; reflexivity|]. rewrite H2.
      constructor; cbn; unfold q1 in *; destruct (f_fin f); cbn [andb negb] in *; auto.
      * intros [Hn|Hn]; [|discriminate]. rewrite Hn. eauto.
      * intros _. eauto.
    + assert (Op : exists c, (if p_local_nct p then z_compressobj zl (p_local_bits p) (p_settings p) = Ok c else p_encoder p = Some c) /\
        exists d, (if p_remote_nct q then z_decompressobj zl (p_remote_bits q) = Ok d else p_decoder q = Some d) /\ sync c d).
      { rewrite <- Nct. destruct (p_local_nct p) eqn:Np.
        - destruct Co as [c Hc], De as [d Hd]. exists c. split; [exact Hc|]. exists d. split; [exact Hd|]. eapply zc_start; eassumption.
        - destruct (Sy (or_introl eq_refl)) as (c & d & Hc & Hd & S0). eauto. }
      destruct Op as (c & Hc & d & Hd & S0).
      set (p1 := if p_local_nct p then set_encoder p (Some c) else p).
      assert (Ep : (if p_local_nct p then match z_compressobj zl (p_local_bits p) (p_settings p) with
          | Raise e => (p, Raise e) | Ok c => encode_data (set_encoder p (Some c)) (replace_rsv1 f true) end
          else encode_data p (replace_rsv1 f true)) = encode_data p1 (replace_rsv1 f true)).
      { unfold p1. destruct (p_local_nct p); [now rewrite Hc|reflexivity]. }
      rewrite Ep. clear Ep.
      assert (Hp1 : p_encoder p1 = Some c) by (unfold p1; destruct (p_local_nct p); [reflexivity|exact Hc]).
      assert (Hp2 : p_local_nct p1 = p_local_nct p) by (unfold p1; destruct (p_local_nct p) eqn:Q0; cbn; congruence).
      set (g := match snd (encode_data p1 (replace_rsv1 f true)) with Ok g => g | Raise _ => replace_rsv1 f true end).
      set (q0 := if negb (f_fin f) then set_decode_cont q true else q).
      set (q1 := if p_remote_nct q then set_decoder q0 (Some d) else q0).
      assert (Hq1 : p_decoder q1 = Some d) by (unfold q1, q0; destruct (p_remote_nct q) eqn:Q0, (negb (f_fin f)); try reflexivity; exact Hd).
      assert (Hq2 : p_remote_nct q1 = p_remote_nct q) by (unfold q1, q0; destruct (p_remote_nct q) eqn:Q0, (negb (f_fin f)); cbn; congruence).
      destruct (data_round_trip p1 q1 (replace_rsv1 f true) (replace_rsv1 (replace_data f (f_data g)) false) c d n Hp1 Hq1 S0) as (c' & d' & H1 & H2 & H3 & H4);
        [congruence|reflexivity|exact Al|reflexivity|].
      cbn [replace_rsv1 replace_data f_data f_fin f_opcode f_rsv1 f_rsv2 f_rsv3] in H1, H2, H3.
      exists (Frame (f_fin f) (f_opcode f) (f_data g) true (f_rsv2 f) (f_rsv3 f)). split; [exact H1|].
      unfold pmd_decode, replace_rsv1. cbn [f_opcode f_rsv1 f_fin replace_rsv1 f_data f_rsv2 f_rsv3]. rewrite Ctl, Cn. cbn [negb]. fold q0.
      assert (Eq : (if p_remote_nct q0 then match z_decompressobj zl (p_remote_bits q0) with
          | Raise e => (q0, Raise e)
          | Ok d0 => decode_data (set_decoder q0 (Some d0)) (Frame (f_fin f) (f_opcode f) (f_data g) false (f_rsv2 f) (f_rsv3 f)) n end
          else decode_data q0 (Frame (f_fin f) (f_opcode f) (f_data g) false (f_rsv2 f) (f_rsv3 f)) n) =
          decode_data q1 (Frame (f_fin f) (f_opcode f) (f_data g) false (f_rsv2 f) (f_rsv3 f)) n).
      { unfold q1, q0. destruct (negb (f_fin f)); cbn [p_remote_nct p_remote_bits set_decode_cont]; destruct (p_remote_nct q); try reflexivity; rewrite Hd; reflexivity. }
      rewrite Eq. change (decode_data q1 _ n) with (decode_data q1 (replace_rsv1 (replace_data f (f_data g)) false) n). rewrite H3. cbn [fst snd]. split; [destruct f; cbn in *; subst; reflexivity|]. unfold replace_rsv1 in H2. rewrite H2.
      constructor.
      * cbn. unfold p1, q1, q0. destruct (p_local_nct p) eqn:Np, (p_remote_nct q) eqn:Nq, (negb (f_fin f)); cbn; congruence.
      * unfold p1, q1, q0. destruct (p_local_nct p), (p_remote_nct q), (negb (f_fin f)); exact Bi.
      * unfold p1. destruct (p_local_nct p); exact Co.
      * unfold q1, q0. destruct (p_remote_nct q), (negb (f_fin f)); exact De.
      * unfold q1, q0. rewrite Hm in Ct. destruct (p_remote_nct q), (f_fin f); cbn; auto.
      * cbn [set_encoder p_local_nct p_encoder set_decoder p_decoder]. rewrite Hp2. intros [Hn|Hn].
        -- rewrite Hn, andb_false_r. eauto.
        -- destruct (f_fin f); [discriminate|]. cbn. eauto.
Qed.

(* when the size limit doesn't allow the frame, it isn't decoded *)
Lemma data_limit (Rl : reports_limit zl sync) p q f f2 c d n : p_encoder p = Some c -> p_decoder q = Some d -> sync c d ->
  f_fin f2 = f_fin f -> ~ allows n f -> n <> Some 0 ->
  f_data f2 = f_data (match snd (encode_data p f) with Ok g => g | Raise _ => f end) ->
  exists e, snd (decode_data q f2 n) = Raise e.
Proof.
  intros Hc Hd S0 Hf Al Nz Hg. unfold encode_data in *. rewrite Hc in *.
  destruct (z_compress zl c (f_data f)) as [c1 x] eqn:Ex. destruct (z_flush zl c1) as [c2 y] eqn:Ey. cbn [fst snd] in *.
  destruct (zc_round_trip zl sync Zc c d (f_data f) c1 x c2 y S0 Ex Ey) as [[z Hz] _]. cbn [replace_data f_data] in Hg.
  destruct n as [m|]; [|exfalso; now apply Al]. unfold decode_data. rewrite Hd.
  replace (if f_fin f2 then f_data f2 ++ empty_block else f_data f2) with (x ++ y).
  2: { rewrite Hf, Hg. destruct (f_fin f); cbn [andb]; [|reflexivity]. rewrite Hz, ends_with_app. rewrite app_length. cbn [length empty_block].
       replace (length z + 4 - 4)%nat with (length z + 0)%nat by lia. rewrite firstn_app_2. cbn. now rewrite app_nil_r. }
  unfold decompress. destruct (Z.ltb_spec m 0); [now exists ValueError|].
  destruct (z_decompress zl d (x ++ y) m) as [d' [out|e]] eqn:De; [|now exists e].
  assert (U : z_unconsumed zl d' <> []). { apply (Rl c d (f_data f) c1 x c2 y m d' out S0 Ex Ey); [unfold allows in Al; assert (m <> 0) by congruence; lia|exact De]. }
  destruct (z_unconsumed zl d'); [contradiction|]. eexists. reflexivity.
Qed.
Lemma frame_limit (Rl : reports_limit zl sync) in_msg p q f n g : linked in_msg p q -> ~ allows n f -> n <> Some 0 -> is_ctrl (f_opcode f) = false ->
  in_msg = opcode_eqb (f_opcode f) CONT -> snd (pmd_encode p f) = Ok g -> exists e, snd (pmd_decode q g n) = Raise e.
Proof.
  intros [Nct Bi Co De Ct Sy] Al Nz Ctl Hm He. unfold pmd_encode in He. rewrite Ctl in He.
  assert (V : forall p f g, snd (encode_data p f) = Ok g -> g = replace_data f (f_data g)).
  { clear. intros p f g. unfold encode_data. destruct (p_encoder p) as [c|]; [|discriminate]. destruct (z_compress zl c (f_data f)) as [c1 x].
    destruct (z_flush zl c1) as [c2 y]. intros H. apply ok_inj in H. subst g. reflexivity. }
  destruct (opcode_eqb (f_opcode f) CONT) eqn:Cn; cbn [negb] in He.
  - subst in_msg. destruct (Sy (or_intror Hm)) as (c & d & Hc & Hd & S0). pose proof (V _ _ _ He) as Vg.
    unfold pmd_decode. rewrite Vg. cbn [replace_data f_opcode f_fin]. rewrite Ctl, Cn, Hm. cbn [negb].
    apply (data_limit Rl p _ f _ c d n Hc); [destruct (f_fin f); exact Hd|exact S0|reflexivity|exact Al|exact Nz|now rewrite He].
  - assert (Op : exists c p1, p_encoder p1 = Some c /\ snd (encode_data p1 (replace_rsv1 f true)) = Ok g /\
        exists d, (if p_remote_nct q then z_decompressobj zl (p_remote_bits q) = Ok d else p_decoder q = Some d) /\ sync c d).
    { rewrite <- Nct. destruct (p_local_nct p) eqn:Np.
      - destruct Co as [c Hc], De as [d Hd]. rewrite Hc in He. exists c, (set_encoder p (Some c)). split; [reflexivity|]. split; [exact He|].
        exists d. split; [exact Hd|]. eapply zc_start; eassumption.
      - destruct (Sy (or_introl eq_refl)) as (c & d & Hc & Hd & S0). exists c, p. eauto. }
    destruct Op as (c & p1 & Hc & He1 & d & Hd & S0). pose proof (V _ _ _ He1) as Vg. clear He.
    unfold pmd_decode. rewrite Vg. unfold replace_rsv1. cbn [replace_data f_opcode f_fin f_rsv1 f_data f_rsv2 f_rsv3 replace_rsv1]. rewrite Ctl, Cn. cbn [negb].
    set (q0 := if negb (f_fin f) then set_decode_cont q true else q).
    assert (Q : p_remote_nct q0 = p_remote_nct q /\ p_remote_bits q0 = p_remote_bits q /\ p_decoder q0 = p_decoder q)
      by (unfold q0; destruct (negb (f_fin f)); repeat split).
    clearbody q0. destruct Q as (Q1 & Q2 & Q3). rewrite Q1, Q2. destruct (p_remote_nct q).
    + rewrite Hd. apply (data_limit Rl p1 _ (replace_rsv1 f true) _ c d n Hc); [reflexivity|exact S0|reflexivity|exact Al|exact Nz|now rewrite He1].
    + apply (data_limit Rl p1 _ (replace_rsv1 f true) _ c d n Hc); [congruence|exact S0|reflexivity|exact Al|exact Nz|now rewrite He1].
Qed.
(* a size limit of zero is the same as none *)
Lemma zero_limit q g q' f' : pmd_decode q g None = (q', Ok f') -> pmd_decode q g (Some 0) = (q', Ok f').
Proof.
  assert (D : forall q g, decode_data q g None = (q', Ok f') -> decode_data q g (Some 0) = (q', Ok f')).
  { clear. intros q g. unfold decode_data. destruct (p_decoder q) as [d|]; [|discriminate]. destruct (decompress _ _ _) as [d' [out|e]]; [|discriminate].
    destruct (z_unconsumed zl d'); [auto|discriminate]. }
  unfold pmd_decode. repeat (match goal with |- context [if ?b then _ else _] => destruct b | |- context [match z_decompressobj ?a ?b with _ => _ end] => destruct (z_decompressobj a b) end); auto.
Qed.
(* what is decoded is what was encoded, whatever the size limit *)
Lemma frame_decoded (Rl : reports_limit zl sync) in_msg p q f n g f' : linked in_msg p q -> f_rsv1 f = false ->
  (is_ctrl (f_opcode f) = false -> in_msg = opcode_eqb (f_opcode f) CONT) ->
  snd (pmd_encode p f) = Ok g -> snd (pmd_decode q g n) = Ok f' ->
  f' = f /\ linked (if is_ctrl (f_opcode f) then in_msg else negb (f_fin f)) (fst (pmd_encode p f)) (fst (pmd_decode q g n)).
Proof.
  intros Lk R1 Hm He Hd.
  assert (Dec : allows n f \/ n = Some 0 \/ (~ allows n f /\ n <> Some 0)).
  { unfold allows. destruct n as [m|]; [|auto]. destruct (Z.eq_dec m 0) as [->|Nm]; [auto|].
    destruct (Z.le_gt_cases (lenZ (f_data f)) m); [auto|]. right. right. split; [lia|congruence]. }
  destruct Dec as [Al|[-> |[Nal Nz]]].
  2: { destruct (frame_round_trip in_msg p q f None Lk R1 Logic.I Hm) as (g' & H1 & H2 & H3). rewrite He in H1. apply ok_inj in H1 as <-.
       destruct (pmd_decode q g None) as [q1 r1] eqn:Q. cbn [fst snd] in *. subst r1. apply zero_limit in Q. rewrite Q in *. cbn [fst snd] in *.
       apply ok_inj in Hd. now split. }
  - destruct (frame_round_trip in_msg p q f n Lk R1 Al Hm) as (g' & H1 & H2 & H3). rewrite He in H1. apply ok_inj in H1 as <-.
    rewrite Hd in H2. apply ok_inj in H2. now split.
  - destruct (is_ctrl (f_opcode f)) eqn:Ctl.
    + unfold pmd_encode in *. rewrite Ctl in *. cbn [fst snd] in *. apply ok_inj in He as <-.
      unfold pmd_decode in *. rewrite Ctl in *. cbn [fst snd] in *. apply ok_inj in Hd. now split.
    + exfalso. destruct (frame_limit Rl in_msg p q f n g Lk Nal Nz Ctl (Hm eq_refl) He) as [e E]. congruence.
Qed.

Lemma round_trip l : forall in_msg p q k limits, linked in_msg p q -> legal in_msg l -> Forall (fun f => f_rsv1 f = false) l ->
  exists gs, encodes p l = map Ok gs /\
    (length limits = k -> (k <= length l)%nat -> Forall2 (fun f n => allows n f) (firstn k l) limits ->
     decodes q (combine (firstn k gs) limits) = map Ok (firstn k l)).
Proof.
  induction l as [|f l IH]; intros in_msg p q k limits Lk Le Rs.
  - exists []. split; [reflexivity|]. intros _ Hk _. destruct k; [reflexivity|]. cbn in Hk. lia.
  - inversion Rs as [|? ? R1 Rs']; subst. cbn [legal] in Le. destruct k as [|k].
    + destruct (frame_round_trip in_msg p q f None Lk R1 Logic.I) as (g & H1 & H2 & H3).
      { intros C. rewrite C in Le. apply Le. }
      destruct (IH (if is_ctrl (f_opcode f) then in_msg else negb (f_fin f)) _ _ 0%nat limits H3) as (gs & H4 & _).
      { destruct (is_ctrl (f_opcode f)); [exact Le|apply Le]. } { exact Rs'. }
      exists (g :: gs). cbn [encodes]. rewrite H1, H4. split; [reflexivity|]. reflexivity.
    + destruct limits as [|n limits].
      { destruct (IH (if is_ctrl (f_opcode f) then in_msg else negb (f_fin f)) (fst (pmd_encode p f))
          (fst (pmd_decode q (match snd (pmd_encode p f) with Ok g => g | Raise _ => f end) None)) 0%nat []) as (gs & H4 & _).
        - destruct (frame_round_trip in_msg p q f None Lk R1 Logic.I) as (g & H1 & H2 & H3).
          { intros C. rewrite C in Le. apply Le. } rewrite H1. exact H3.
        - destruct (is_ctrl (f_opcode f)); [exact Le|apply Le].
        - exact Rs'.
        - destruct (frame_round_trip in_msg p q f None Lk R1 Logic.I) as (g & H1 & _). { intros C. rewrite C in Le. apply Le. }
          exists (g :: gs). cbn [encodes]. rewrite H1, H4. split; [reflexivity|]. discriminate. }
      assert (Dec : allows n f \/ ~ allows n f). { unfold allows. destruct n; [|auto]. lia. }
      destruct Dec as [Al|Nal].
      * destruct (frame_round_trip in_msg p q f n Lk R1 Al) as (g & H1 & H2 & H3). { intros C. rewrite C in Le. apply Le. }
        destruct (IH (if is_ctrl (f_opcode f) then in_msg else negb (f_fin f)) _ _ k limits H3) as (gs & H4 & H5).
        { destruct (is_ctrl (f_opcode f)); [exact Le|apply Le]. } { exact Rs'. }
        exists (g :: gs). cbn [encodes]. rewrite H1, H4. split; [reflexivity|]. intros Hl Hk F. cbn [firstn combine map decodes].
        cbn [firstn] in F. inversion F as [|? ? ? ? Ha F']; subst. rewrite H2. f_equal. apply H5; [cbn in Hl; lia|cbn in Hk; lia|exact F'].
      * destruct (frame_round_trip in_msg p q f None Lk R1 Logic.I) as (g & H1 & H2 & H3). { intros C. rewrite C in Le. apply Le. }
        destruct (IH (if is_ctrl (f_opcode f) then in_msg else negb (f_fin f)) _ _ 0%nat [] H3) as (gs & H4 & _).
        { destruct (is_ctrl (f_opcode f)); [exact Le|apply Le]. } { exact Rs'. }
        exists (g :: gs). cbn [encodes]. rewrite H1, H4. split; [reflexivity|]. intros _ _ F. cbn [firstn] in F. inversion F; subst. contradiction.
Qed.
End RoundTrip.
End Run.

(* ---- single calls ---- *)

Section Calls.
Context {zl : zlib}.
Implicit Types p q : pmd zl.
Lemma encode_data_view p f p' g : encode_data p f = (p', Ok g) -> g = replace_data f (f_data g).
Proof.
  unfold encode_data. destruct (p_encoder p) as [c|]; [|discriminate]. destruct (z_compress zl c (f_data f)) as [c1 x]. destruct (z_flush zl c1) as [c2 y].
  intros H. apply pair_equal_spec in H as [_ H]. apply ok_inj in H. subst g. reflexivity.
Qed.
Lemma encode_view p f p' g : pmd_encode p f = (p', Ok g) ->
  if is_ctrl (f_opcode f) then g = f else g = Frame (f_fin f) (f_opcode f) (f_data g) (if opcode_eqb (f_opcode f) CONT then f_rsv1 f else true) (f_rsv2 f) (f_rsv3 f).
Proof.
  unfold pmd_encode. destruct (is_ctrl (f_opcode f)). { intros H. apply pair_equal_spec in H as [_ H]. now apply ok_inj in H. }
  destruct (opcode_eqb (f_opcode f) CONT); cbn [negb]; [apply encode_data_view|].
  destruct (p_local_nct p); [destruct (z_compressobj zl _ _); [|discriminate]|]; apply encode_data_view.
Qed.
Lemma decode_data_view p f n p' g : decode_data p f n = (p', Ok g) ->
  g = replace_data f (f_data g) /\ (limits_output zl -> forall m, n = Some m -> m <> 0 -> lenZ (f_data g) <= m).
Proof.
  unfold decode_data. destruct (p_decoder p) as [d|]; [|discriminate].
  destruct (decompress d _ _) as [d' [x|e]] eqn:De; [|discriminate]. destruct (z_unconsumed zl d'); [|discriminate].
  intros H. apply pair_equal_spec in H as [_ H]. apply ok_inj in H. subst g. split; [reflexivity|]. intros Lo m -> Nz. cbn [replace_data f_data].
  unfold decompress in De. destruct (Z.ltb_spec m 0); [discriminate|]. eapply Lo; [|exact De]. lia.
Qed.
Lemma decode_view p f n p' g : pmd_decode p f n = (p', Ok g) ->
  (g = f \/ g = Frame (f_fin f) (f_opcode f) (f_data g) (if opcode_eqb (f_opcode f) CONT then f_rsv1 f else false) (f_rsv2 f) (f_rsv3 f)) /\
  (is_ctrl (f_opcode f) = true -> g = f) /\
  (limits_output zl -> forall m, n = Some m -> m <> 0 -> lenZ (f_data f) <= m -> lenZ (f_data g) <= m).
Proof.
  unfold pmd_decode. destruct (is_ctrl (f_opcode f)).
  { intros H. apply pair_equal_spec in H as [_ H]. apply ok_inj in H. subst g. auto. }
  destruct (opcode_eqb (f_opcode f) CONT).
  - destruct (negb (p_decode_cont p)). { intros H. apply pair_equal_spec in H as [_ H]. apply ok_inj in H. subst g. split; [auto|]. split; [discriminate|auto]. }
    intros H. apply decode_data_view in H as [H L]. split; [right; exact H|]. split; [discriminate|]. intros. now apply L.
  - destruct (negb (f_rsv1 f)). { intros H. apply pair_equal_spec in H as [_ H]. apply ok_inj in H. subst g. split; [auto|]. split; [discriminate|auto]. }
    intros H. assert (H' : exists q, decode_data q (replace_rsv1 f false) n = (p', Ok g)).
    { destruct (p_remote_nct _); [destruct (z_decompressobj zl _); [|discriminate]|]; eauto. }
    destruct H' as [q H']. apply decode_data_view in H' as [H' L]. split; [right; exact H'|]. split; [discriminate|]. intros. now apply L.
Qed.
Lemma pmd_keeps_framing : keeps_framing (pmd_ops zl).
Proof.
  split.
  - intros e f e' f' H. cbn in H. apply encode_view in H. destruct (is_ctrl (f_opcode f)); [subst; auto|]. rewrite H. cbn. split; [reflexivity|]. split; [reflexivity|discriminate].
  - intros e f n e' f' H. cbn in H. apply decode_view in H as (H & Hc & _). split; [|split; [|exact Hc]]; destruct H as [-> |H]; try reflexivity; rewrite H; reflexivity.
Qed.

(* the flag after a call, also if it raises *)
Lemma decode_data_cont p f n : p_decode_cont (fst (decode_data p f n)) = p_decode_cont p.
Proof.
  unfold decode_data. destruct (p_decoder p) as [d|]; [|reflexivity]. destruct (decompress d _ _) as [d' [x|e]]; [|reflexivity].
  destruct (z_unconsumed zl d'); [|reflexivity]. cbn. destruct (f_fin f && p_remote_nct p); reflexivity.
Qed.
Lemma decode_cont_flag p f n : p_decode_cont (fst (pmd_decode p f n)) =
  if is_ctrl (f_opcode f) then p_decode_cont p
  else if opcode_eqb (f_opcode f) CONT then p_decode_cont p && negb (f_fin f)
  else if f_rsv1 f && negb (f_fin f) then true else p_decode_cont p.
Proof.
  unfold pmd_decode. destruct (is_ctrl (f_opcode f)); [reflexivity|]. destruct (opcode_eqb (f_opcode f) CONT).
  - destruct (p_decode_cont p) eqn:C; cbn [negb]; [|exact C]. rewrite decode_data_cont. destruct (f_fin f); cbn; [reflexivity|exact C].
  - destruct (f_rsv1 f); cbn [negb andb]; [|reflexivity]. cbn [f_fin replace_rsv1]. destruct (f_fin f); cbn [negb].
    + destruct (p_remote_nct p); [destruct (z_decompressobj zl _); [|reflexivity]|]; rewrite decode_data_cont; reflexivity.
    + cbn [p_remote_nct set_decode_cont]. destruct (p_remote_nct p); [destruct (z_decompressobj zl _); [|reflexivity]|]; rewrite decode_data_cont; reflexivity.
Qed.
Lemma decodes_uncompressed l : forall in_msg cur p, legal in_msg (map fst l) -> p_decode_cont p = cur -> (cur = true -> in_msg = true) ->
  Forall2 (fun f rc => snd rc = false -> fst rc = Ok f) (map fst l) (combine (decodes p l) (in_compressed cur (map fst l))).
Proof.
  induction l as [|[f n] l IH]; intros in_msg cur p Le Hc Hm; [constructor|].
  cbn [map fst legal] in Le. cbn [decodes map fst].
  pose proof (decode_cont_flag p f n) as Fl. cbn [in_compressed].
  destruct (f_opcode f) eqn:O; cbn [is_ctrl] in *.
  - cbn in Le. destruct Le as [-> Le]. cbn [combine]. constructor.
    + cbn [fst snd]. intros ->. unfold pmd_decode. rewrite O, Hc. reflexivity.
    + apply (IH (negb (f_fin f))); [exact Le|rewrite Fl; cbn; now rewrite Hc|]. intros Ht. now apply andb_true_iff in Ht as [_ ->].
  - cbn in Le. destruct Le as [-> Le]. cbn [combine]. assert (p_decode_cont p = false) by (destruct cur; [now specialize (Hm eq_refl)|exact Hc]). constructor.
    + cbn [fst snd]. intros R. unfold pmd_decode. rewrite O, R. reflexivity.
    + apply (IH (negb (f_fin f))); [exact Le|rewrite Fl; cbn|intros Ht; now apply andb_true_iff in Ht as [_ ->]].
      destruct (f_rsv1 f && negb (f_fin f)); auto.
  - cbn in Le. destruct Le as [-> Le]. cbn [combine]. assert (p_decode_cont p = false) by (destruct cur; [now specialize (Hm eq_refl)|exact Hc]). constructor.
    + cbn [fst snd]. intros R. unfold pmd_decode. rewrite O, R. reflexivity.
    + apply (IH (negb (f_fin f))); [exact Le|rewrite Fl; cbn|intros Ht; now apply andb_true_iff in Ht as [_ ->]].
      destruct (f_rsv1 f && negb (f_fin f)); auto.
  - cbn [combine]. constructor; [intros _; unfold pmd_decode; rewrite O; reflexivity|]. apply (IH in_msg); auto. now rewrite Fl.
  - cbn [combine]. constructor; [intros _; unfold pmd_decode; rewrite O; reflexivity|]. apply (IH in_msg); auto. now rewrite Fl.
  - cbn [combine]. constructor; [intros _; unfold pmd_decode; rewrite O; reflexivity|]. apply (IH in_msg); auto. now rewrite Fl.
Qed.
End Calls.
