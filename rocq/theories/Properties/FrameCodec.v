(* C01-C06: masking, frame codec, close payload codec. *)
From Verif Require Import Base.Prelude Base.PreludeFacts Base.Utf8 Model.Utils Model.Speedups
  Model.Streams Model.Frames Spec.Rfc6455 Spec.Utf8Spec Spec.FrameSpec
  Proofs.StreamsFacts Proofs.MaskFacts Proofs.FramesFacts Proofs.Utf8SpecFacts.
Local Open Scope N_scope.

(* An extension type for the examples: no extension exists. *)
Definition no_ext : ext_ops Empty_set :=
  {| ext_name := fun e : Empty_set => match e with end;
     ext_decode := fun e : Empty_set => match e with end;
     ext_encode := fun e : Empty_set => match e with end |}.

(* ---- C01 ---- *)

(* A serialized frame followed by anything parses back to the frame, leaving the rest. *)
Theorem C01_frame_round_trip :
  forall E (X : ext_ops E) f mask key max_size rest eof exts w,
    length key = 4%nat ->
    serialize X [] f mask key = (exts, Ok w) ->
    fits max_size (length (f_data f)) ->
    run (frame_parse X mask max_size) {| r_buffer := w ++ rest; r_eof := eof |} []
    = ODone f {| r_buffer := rest; r_eof := eof |} [].
Proof.
  intros E X f mask key max_size rest eof exts w Hk Hs Hf.
  unfold serialize in Hs. destruct (check f) as [[]|] eqn:C; [|discriminate].
  cbn [encode_in_order] in Hs. apply pair_equal_spec in Hs as [_ Hw].
  destruct (wire_layout f mask key w Hk Hw) as (ext & L & _).
  destruct (parse_wire_layout mask max_size _ w rest {| r_buffer := w ++ rest; r_eof := eof |} (@nil E)
              (ex_intro _ ext L) eq_refl) as (res & V & R).
  assert (Hm : is_masked (on_wire f (key_opt mask key)) = mask).
  { destruct key as [|? [|? [|? [|? [|]]]]]; try discriminate Hk. destruct mask; reflexivity. }
  assert (K : kind_of_opcode (w_opcode (on_wire f (key_opt mask key))) <> None)
    by (apply kind_opcode; simpl; eauto).
  rewrite frame_parse_noext.
  inversion V as [K'|K' M|m K' M EM F|f0 key0 M F O]; subst res; [congruence|congruence| |].
  - exfalso. apply F. exact Hf.
  - destruct f as [fin o data r1 r2 r3], f0 as [fin' o' data' r1' r2' r3'].
    unfold on_wire in *. simpl in *.
    injection O as E1 E2 E3 E4 E5 _ E6. apply rfc_opcode_inj in E5. subst.
    rewrite R. rewrite C. reflexivity.
Qed.

(* Serializing succeeds for every valid frame whose length fits in 64 bits. *)
Theorem C01_valid_frames_serialize :
  forall E (X : ext_ops E) f mask key,
    length key = 4%nat ->
    acceptable (on_wire f None) -> lenN (f_data f) < 2 ^ 64 ->
    exists w, serialize X [] f mask key = ([], Ok w).
Proof.
  intros E X f mask key Hk Ha Hl. apply check_acceptable in Ha.
  destruct (wire_succeeds f mask key Hk Hl) as [w Hw].
  exists w. unfold serialize. rewrite Ha. simpl. now rewrite Hw.
Qed.

Example C01_example :
  let f := mkframe true TEXT (b "hello") in
  let key := [Byte.x01; Byte.x02; Byte.x03; Byte.x04] in
  exists w, serialize no_ext [] f true key = ([], Ok w) /\ length w = 11%nat /\
  run (frame_parse no_ext true (Some 5%Z)) {| r_buffer := w ++ b "next"; r_eof := false |} []
  = ODone f {| r_buffer := b "next"; r_eof := false |} [].
Proof. eexists. repeat split; vm_compute; reflexivity. Qed.

(* ---- C02 ---- *)

(* What is written is the RFC layout of the frame, with the shortest length encoding. *)
Theorem C02_wire_format :
  forall E (X : ext_ops E) f mask k0 k1 k2 k3 exts w,
    serialize X [] f mask [k0; k1; k2; k3] = (exts, Ok w) ->
    minimal_layout (on_wire f (if mask then Some (k0, k1, k2, k3) else None)) w.
Proof.
  intros E X f mask k0 k1 k2 k3 exts w H. unfold serialize in H.
  destruct (check f); [|discriminate]. cbn [encode_in_order] in H.
  apply pair_equal_spec in H as [_ Hw].
  exact (wire_layout f mask [k0; k1; k2; k3] w eq_refl Hw).
Qed.

(* With extensions: the layout of the frame as transformed by the extensions in order. *)
Theorem C02_wire_format_extensions :
  forall E (X : ext_ops E) exts f mask k0 k1 k2 k3 exts' w,
    serialize X exts f mask [k0; k1; k2; k3] = (exts', Ok w) ->
    exists f', encode_in_order X exts f = (exts', Ok f') /\
    minimal_layout (on_wire f' (if mask then Some (k0, k1, k2, k3) else None)) w.
Proof.
  intros E X exts f mask k0 k1 k2 k3 exts' w H. unfold serialize in H.
  destruct (check f); [|discriminate]. destruct (encode_in_order X exts f) as [ex [f'|]]; [|discriminate].
  apply pair_equal_spec in H as [-> Hw]. exists f'. split; [reflexivity|].
  exact (wire_layout f' mask [k0; k1; k2; k3] w eq_refl Hw).
Qed.

(* A frame is refused exactly when it is invalid or too long for the 64-bit length. *)
Theorem C02_serialize_refuses :
  forall E (X : ext_ops E) f mask key,
    length key = 4%nat ->
    (exists e exts, serialize X [] f mask key = (exts, Raise e)) <->
    ~ (acceptable (on_wire f None) /\ lenN (f_data f) < 2 ^ 64).
Proof.
  intros E X f mask key Hk. split.
  - intros (e & exts & H) [Ha Hl].
    destruct (C01_valid_frames_serialize E X f mask key Hk Ha Hl). congruence.
  - intros H. unfold serialize. destruct (check f) as [[]|e] eqn:C; [|eauto].
    apply (proj1 (check_acceptable f None)) in C. simpl.
    destruct (wire f mask key) as [w|e] eqn:W; [|eauto].
    exfalso. apply H. split; [exact C|].
    destruct (wire_layout f mask key w Hk W) as (ext & (? & ? & ? & ? & L) & _).
    decompose [and] L. eapply length_field_lt; eassumption.
Qed.

Example C02_example :
  exists w, serialize no_ext [] (mkframe false BINARY (repeat Byte.xff 300)) false
              [Byte.x00; Byte.x00; Byte.x00; Byte.x00] = ([], Ok w) /\
    firstn 4 w = [Byte.x02; Byte.x7e; Byte.x01; Byte.x2c].
Proof. eexists. split; vm_compute; reflexivity. Qed.

(* ---- C03 ---- *)

Theorem C03_masking_is_xor :
  forall data k0 k1 k2 k3, exists out,
    apply_mask data [k0; k1; k2; k3] = Ok out /\
    masked_with (k0, k1, k2, k3) data out.
Proof. intros. eexists. split; [reflexivity|apply xor_cycle_masked]. Qed.

Theorem C03_masking_involution :
  forall data key out, apply_mask data key = Ok out -> apply_mask out key = Ok data.
Proof.
  intros data key out. unfold apply_mask. destruct (lenN key =? 4) eqn:L; [|discriminate].
  intros H. apply ok_inj in H. subst out. rewrite xor_cycle_invol; [reflexivity|].
  intros ->. discriminate L.
Qed.

Theorem C03_bad_key_rejected :
  forall data key, length key <> 4%nat -> apply_mask data key = Raise ValueError.
Proof.
  intros data key H. unfold apply_mask. destruct (N.eqb_spec (lenN key) 4) as [L|L]; [|reflexivity].
  unfold lenN in L. lia.
Qed.

Example C03_example :
  apply_mask (b "Hello") [Byte.x37; Byte.xfa; Byte.x21; Byte.x3d]
  = Ok [Byte.x7f; Byte.x9f; Byte.x4d; Byte.x51; Byte.x58].   (* RFC 6455 section 5.7 *)
Proof. reflexivity. Qed.

(* ---- C04 ---- *)

Theorem C04_sse2_equals_python :
  forall data key, apply_mask_sse2 data key = apply_mask data key.
Proof. exact apply_mask_sse2_correct. Qed.

Theorem C04_64bit_equals_python :
  forall little_endian data key, apply_mask_64 little_endian data key = apply_mask data key.
Proof. exact apply_mask_64_correct. Qed.

(* both loops of the C code run: 1 block of 16 bytes and 5 bytes *)
Example C04_example :
  let data := b "abcdefghijklmnopqrstu" in
  let key := [Byte.x37; Byte.xfa; Byte.x21; Byte.x3d] in
  word_loop 21 true 16 data
    (let m := load true key in
     N.lor (N.shiftl m 96) (N.lor (N.shiftl m 64) (N.lor (N.shiftl m 32) m))) 0 16
  = (xor_cycle (firstn 16 data) key key, 16%nat).
Proof. vm_compute. reflexivity. Qed.

(* ---- C05 ---- *)

Definition frame_ok (mask : bool) (max_size : option Z) (wf : wframe) : Prop :=
  acceptable wf /\ is_masked wf = mask /\ fits max_size (length (w_payload wf)).

(* The exception documented for a frame that isn't acceptable. *)
Definition documented_error (mask : bool) (max_size : option Z) (wf : wframe) (e : exn) : Prop :=
  if match kind_of_opcode (w_opcode wf) with None => true | _ => false end
     || negb (Bool.eqb (is_masked wf) mask)
  then exists msg, e = ProtocolError msg
  else (fits max_size (length (w_payload wf)) /\ exists msg, e = ProtocolError msg) \/
       (~ fits max_size (length (w_payload wf)) /\ exists msg, e = PayloadTooBig msg).

Theorem C05_frame_acceptance :
  forall E (X : ext_ops E) mask max_size wf w rest eof,
    layout wf w ->
    (frame_ok mask max_size wf ->
       exists f, wf = on_wire f (w_mask wf) /\
       run (frame_parse X mask max_size) {| r_buffer := w ++ rest; r_eof := eof |} []
       = ODone f {| r_buffer := rest; r_eof := eof |} []) /\
    (~ frame_ok mask max_size wf ->
       exists e r, documented_error mask max_size wf e /\
       run (frame_parse X mask max_size) {| r_buffer := w ++ rest; r_eof := eof |} []
       = OFail e r []).
Proof.
  intros E X mask max_size wf w rest eof L.
  destruct (parse_wire_layout mask max_size wf w rest {| r_buffer := w ++ rest; r_eof := eof |} (@nil E)
              L eq_refl) as (res & V & R).
  rewrite frame_parse_noext. unfold frame_ok, documented_error.
  inversion V as [K|K M|m K M EM F|f key M F O]; subst res.
  - destruct R as [r' R]. rewrite R, K. split.
    + intros [(_ & _ & _ & Hk & _) _]. congruence.
    + intros _. eexists _, r'. simpl. eauto.
  - destruct R as [r' R]. rewrite R. split.
    + intros (_ & Hm & _). contradiction.
    + intros _. eexists _, r'. split; [|reflexivity].
      replace (Bool.eqb (is_masked wf) mask) with false by (symmetry; now apply eqb_false_iff).
      rewrite orb_true_r. eauto.
  - destruct R as [r' R]. rewrite R. split.
    + intros (_ & _ & Hf). contradiction.
    + intros _. eexists _, r'. split; [|reflexivity].
      destruct (kind_of_opcode (w_opcode wf)); [|congruence].
      rewrite M, eqb_reflx. simpl. eauto.
  - rewrite R. subst wf. destruct (check f) as [[]|e] eqn:C; split.
    + intros _. exists f. split; reflexivity.
    + intros H. exfalso. apply H. split; [|auto]. now apply check_acceptable.
    + intros (Ha & _). apply check_acceptable in Ha. congruence.
    + intros _. eexists e, _. split; [|reflexivity].
      assert (Kd : kind_of_opcode (w_opcode (on_wire f key)) <> None)
        by (apply kind_opcode; simpl; eauto).
      destruct (kind_of_opcode (w_opcode (on_wire f key))); [|congruence].
      rewrite M, eqb_reflx. simpl. left. split; [exact F|]. eapply check_raises; eauto.
Qed.

(* Conversely what is returned was on the wire, complete, and acceptable. *)
Theorem C05_accepted_frames_were_received :
  forall E (X : ext_ops E) mask max_size bs eof f r exts,
    run (frame_parse X mask max_size) {| r_buffer := bs; r_eof := eof |} [] = ODone f r exts ->
    exists w key, bs = w ++ r_buffer r /\ layout (on_wire f key) w /\
      frame_ok mask max_size (on_wire f key).
Proof.
  intros E X mask max_size bs eof f r exts H. rewrite frame_parse_noext in H.
  destruct (run (parse_wire mask max_size) {| r_buffer := bs; r_eof := eof |} [])
    as [? ? ?|f' r' x'|? ? ?] eqn:R; try discriminate H.
  destruct (check f') as [[]|] eqn:C; [|discriminate H].
  assert (f' = f /\ r' = r) as [-> ->] by (split; congruence).
  apply parse_wire_inv in R as (_ & _ & w & key & Hb & L & M & F).
  exists w, key. split; [exact Hb|]. split; [exact L|].
  split; [apply check_acceptable; exact C|]. split; [exact M|exact F].
Qed.

(* An oversize frame is rejected as soon as its length is known. *)
Theorem C05_oversize_rejected_early :
  forall E (X : ext_ops E) mask m b0 b1 ext n rest eof,
    kind_of_opcode (octet_value b0 mod 16) <> None ->
    N.testbit (octet_value b1) 7 = mask ->
    length_field n (octet_value b1 mod 128) ext ->
    (m < Z.of_N n)%Z ->
    exists msg r,
      run (frame_parse X mask (Some m)) {| r_buffer := b0 :: b1 :: ext ++ rest; r_eof := eof |} []
      = OFail (PayloadTooBig msg) r [].
Proof.
  intros E X mask m b0 b1 ext n rest eof K M L Hm. rewrite frame_parse_noext.
  unfold parse_wire.
  rewrite run_gbind, (run_read_exact_app 2 [b0; b1] (ext ++ rest)) by reflexivity. cbn [obind].
  destruct (bits_head1 b0) as (_ & _ & _ & _ & B15 & _).
  destruct (bits_head1 b1) as (M7 & _ & _ & _ & _ & M127).
  rewrite B15, M7, M127. unfold b2n. rewrite M, eqb_reflx. cbn [negb].
  destruct (opcode_of_N (octet_value b0 mod 16)) as [o|] eqn:O.
  - rewrite (run_length _ _ _ _ _ _ rest L) by reflexivity. rewrite run_gbind.
    destruct (Z.ltb_spec m (Z.of_N n)); [|lia]. simpl. eauto.
  - apply kind_opcode in K as [o E0]. apply opcode_of_N_rfc in E0. congruence.
Qed.

Example C05_example :
  layout (on_wire (mkframe true PING []) None) [Byte.x89; Byte.x00] /\
  frame_ok false (Some 0%Z) (on_wire (mkframe true PING []) None) /\
  layout {| w_fin := true; w_rsv1 := false; w_rsv2 := false; w_rsv3 := false; w_opcode := 3;
            w_mask := None; w_payload := [] |} [Byte.x83; Byte.x00] /\
  ~ frame_ok false None {| w_fin := true; w_rsv1 := false; w_rsv2 := false; w_rsv3 := false;
                           w_opcode := 3; w_mask := None; w_payload := [] |}.
Proof.
  split; [|split; [|split]].
  - exists [], Byte.x89, Byte.x00, [], []. repeat split; auto. apply len7. vm_compute. discriminate.
  - unfold frame_ok, acceptable. cbn. split; [|split; [reflexivity|lia]].
    do 3 (split; [reflexivity|]). split; [discriminate|]. intros _. split; [reflexivity|lia].
  - exists [], Byte.x83, Byte.x00, [], []. repeat split; auto. apply len7. vm_compute. discriminate.
  - intros [(_ & _ & _ & K & _) _]. vm_compute in K. congruence.
Qed.

(* ---- C06 ---- *)

Theorem C06_close_round_trip :
  forall code reason data,
    serialize_close code reason = Ok data -> parse_close data = Ok (code, reason).
Proof. exact parse_serialize_close. Qed.

Theorem C06_close_build_exact :
  forall code reason data,
    serialize_close code reason = Ok data <->
    sendable_close_code code /\
    exists hi lo r, data = hi :: lo :: r /\
      Z.of_N (octet_value hi * 256 + octet_value lo) = code /\ utf8_text reason r.
Proof.
  intros code reason data. split.
  - unfold serialize_close.
    destruct (check_close_cases code) as [C|[C _]]; rewrite C; cbn [rbind]; [|discriminate].
    apply check_close_ok in C. destruct (utf8_encode reason) as [r|] eqn:U; cbn [rbind]; [|discriminate].
    intros H. apply ok_inj in H. subst data. split; [exact C|].
    apply sendable_range in C.
    exists (n2b (Z.to_N code / 256 ^ 1)), (n2b (Z.to_N code / 256 ^ 0)), r.
    split; [reflexivity|]. split; [|now apply utf8_encode_spec].
    change (256 ^ 1) with 256. change (256 ^ 0) with 1.
    fold (b2n (n2b (Z.to_N code / 256))) (b2n (n2b (Z.to_N code / 1))).
    rewrite N.div_1_r, !b2n_n2b.
    rewrite (N.mod_small (Z.to_N code / 256)) by (apply N.div_lt_upper_bound; lia).
    rewrite (N.mul_comm _ 256), <- N.div_mod by discriminate. lia.
  - intros (C & hi & lo & r & -> & Hc & U).
    apply check_close_ok in C as C'. unfold serialize_close. rewrite C'. cbn [rbind].
    apply utf8_encode_spec in U. rewrite U. cbn [rbind]. f_equal.
    assert (E : Z.to_N code = be_N [hi; lo]).
    { rewrite <- Hc, N2Z.id. rewrite !be_N_cons, be_N_nil. simpl length.
      change (256 ^ N.of_nat 1) with 256. change (256 ^ N.of_nat 0) with 1. unfold b2n. lia. }
    rewrite E. change (be_bytes 2) with (be_bytes (length [hi; lo])). rewrite be_bytes_be_N. reflexivity.
Qed.

Theorem C06_close_parse_exact :
  forall data code reason,
    parse_close data = Ok (code, reason) <->
    (data = [] /\ code = 1005%Z /\ reason = []) \/
    (sendable_close_code code /\
     exists hi lo r, data = hi :: lo :: r /\
       Z.of_N (octet_value hi * 256 + octet_value lo) = code /\ utf8_text reason r).
Proof.
  intros data code reason. rewrite <- C06_close_build_exact. split.
  - apply serialize_parse_close.
  - intros [(-> & -> & ->)|H]; [reflexivity|]. now apply parse_serialize_close.
Qed.

(* 1004, 1005, 1006 and 1015 never appear on the wire. *)
Theorem C06_reserved_codes_not_built :
  forall code reason,
    In code [1004; 1005; 1006; 1015]%Z ->
    serialize_close code reason = Raise (ProtocolError (s "invalid status code")).
Proof.
  intros code reason H. unfold serialize_close.
  destruct (check_close_cases code) as [C|[C _]]; rewrite C; [|reflexivity].
  apply check_close_ok in C. unfold sendable_close_code in C. simpl in H. lia.
Qed.

Example C06_example :
  serialize_close 1001 (s "bye") = Ok ([Byte.x03; Byte.xe9] ++ b "bye") /\
  sendable_close_code 4999 /\ ~ sendable_close_code 1006 /\ ~ sendable_close_code 5000 /\
  parse_close [Byte.x03; Byte.xed] = Raise (ProtocolError (s "invalid status code")).
Proof.
  split; [vm_compute; reflexivity|]. unfold sendable_close_code.
  repeat split; try lia; vm_compute; reflexivity.
Qed.

Print Assumptions C01_frame_round_trip.
Print Assumptions C01_valid_frames_serialize.
Print Assumptions C02_wire_format.
Print Assumptions C02_wire_format_extensions.
Print Assumptions C02_serialize_refuses.
Print Assumptions C03_masking_is_xor.
Print Assumptions C03_masking_involution.
Print Assumptions C03_bad_key_rejected.
Print Assumptions C04_sse2_equals_python.
Print Assumptions C04_64bit_equals_python.
Print Assumptions C05_frame_acceptance.
Print Assumptions C05_accepted_frames_were_received.
Print Assumptions C05_oversize_rejected_early.
Print Assumptions C06_close_round_trip.
Print Assumptions C06_close_build_exact.
Print Assumptions C06_close_parse_exact.
Print Assumptions C06_reserved_codes_not_built.
