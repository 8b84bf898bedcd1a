(* Facts about Model/Frames.v *)
From Verif Require Import Base.Prelude Base.PreludeFacts Base.Utf8 Base.Utf8Facts Model.Utils
  Model.Streams Model.Frames Proofs.StreamsFacts Proofs.MaskFacts Spec.Rfc6455 Spec.FrameSpec.
Local Open Scope N_scope.

Lemma network_order_be_N l : network_order l = be_N l.
Proof.
  induction l as [|x l IH]; [reflexivity|].
  rewrite be_N_cons. simpl. rewrite IH. reflexivity.
Qed.

(* ---- bit fields ---- *)

Lemma bits_head1 (x : byte) :
  bit (b2n x) 128 = N.testbit (b2n x) 7 /\ bit (b2n x) 64 = N.testbit (b2n x) 6 /\
  bit (b2n x) 32 = N.testbit (b2n x) 5 /\ bit (b2n x) 16 = N.testbit (b2n x) 4 /\
  N.land (b2n x) 15 = b2n x mod 16 /\ N.land (b2n x) 127 = b2n x mod 128.
Proof.
  change 15 with (N.ones 4). change 127 with (N.ones 7). rewrite !N.land_ones.
  destruct x; vm_compute; auto 10.
Qed.

Lemma opcode_of_N_rfc n o : opcode_of_N n = Some o <-> n = rfc_opcode o.
Proof.
  split.
  - intros H. destruct n as [|[[[[]|[]|]|[[]|[]|]|]|[[[]|[]|]|[[]|[]|]|]|]];
      simpl in H; try discriminate H; apply some_inj in H; subst o; reflexivity.
  - intros ->. destruct o; reflexivity.
Qed.

Lemma opcode_N_rfc o : opcode_N o = rfc_opcode o.
Proof. destruct o; reflexivity. Qed.

Lemma kind_opcode n : kind_of_opcode n <> None <-> exists o, n = rfc_opcode o.
Proof.
  split.
  - unfold kind_of_opcode. intros H.
    destruct (N.eqb_spec n 0); [now exists CONT|]. destruct (N.eqb_spec n 1); [now exists TEXT|].
    destruct (N.eqb_spec n 2); [now exists BINARY|]. destruct (N.eqb_spec n 8); [now exists CLOSE|].
    destruct (N.eqb_spec n 9); [now exists PING|]. destruct (N.eqb_spec n 10); [now exists PONG|].
    congruence.
  - intros [o ->]. destruct o; discriminate.
Qed.

Lemma rfc_opcode_inj x y : rfc_opcode x = rfc_opcode y -> x = y.
Proof. destruct x, y; try reflexivity; discriminate. Qed.

(* ---- check ---- *)

Lemma check_acceptable f k : check f = Ok tt <-> acceptable (on_wire f k).
Proof.
  unfold check, acceptable, on_wire, control_opcode. simpl.
  assert (K : kind_of_opcode (rfc_opcode (f_opcode f)) <> None) by (apply kind_opcode; eauto).
  destruct (f_rsv1 f), (f_rsv2 f), (f_rsv3 f); cbn [orb]; try (split; [discriminate|intuition discriminate]).
  unfold lenN.
  destruct (is_ctrl (f_opcode f)) eqn:C.
  - assert (D : rfc_opcode (f_opcode f) = 8 \/ rfc_opcode (f_opcode f) = 9 \/ rfc_opcode (f_opcode f) = 10)
      by (destruct (f_opcode f); try discriminate C; auto).
    destruct (N.ltb_spec 125 (N.of_nat (length (f_data f)))) as [L|L].
    + split; [discriminate|]. intros (_ & _ & _ & _ & H). destruct (H D). lia.
    + destruct (f_fin f); cbn [negb].
      * split; [|reflexivity]. intros _. do 4 (split; [auto|]). split; [auto|lia].
      * split; [discriminate|]. intros (_ & _ & _ & _ & H). destruct (H D). discriminate.
  - split; [|reflexivity]. intros _. do 4 (split; [auto|]).
    intros D. destruct (f_opcode f); try discriminate C; destruct D as [D|[D|D]]; discriminate D.
Qed.

Lemma check_raises f e : check f = Raise e -> exists m, e = ProtocolError m.
Proof.
  unfold check. destruct (f_rsv1 f || f_rsv2 f || f_rsv3 f); [intros H; injection H; eauto|].
  destruct (is_ctrl (f_opcode f)); [|discriminate].
  destruct (125 <? lenN (f_data f)); [intros H; injection H; eauto|].
  destruct (negb (f_fin f)); [intros H; injection H; eauto|discriminate].
Qed.

(* ---- masking ---- *)

Lemma masking_key_nth a c d e i :
  b2n (nth (i mod 4) [a; c; d; e] Byte.x00) = masking_key_octet (a, c, d, e) i.
Proof.
  unfold masking_key_octet. change (Nat.modulo i 4) with (i mod 4)%nat.
  pose proof (Nat.mod_upper_bound i 4 ltac:(discriminate)) as H.
  destruct (i mod 4)%nat as [|[|[|[|k]]]]; try reflexivity. lia.
Qed.

Lemma apply_mask_4 data a c d e :
  apply_mask data [a; c; d; e] = Ok (xor_cycle data [a; c; d; e] [a; c; d; e]).
Proof. reflexivity. Qed.

Lemma xor_cycle_masked data a c d e :
  masked_with (a, c, d, e) data (xor_cycle data [a; c; d; e] [a; c; d; e]).
Proof.
  split; [apply xor_cycle_length; discriminate|].
  intros i x y Hx Hy.
  rewrite (xor_cycle_nth a c d e data 0 i x y Hx Hy), <- masking_key_nth.
  rewrite Nat.add_0_l. apply b2n_bxor.
Qed.

Lemma masked_unique k p o1 o2 : masked_with k p o1 -> masked_with k p o2 -> o1 = o2.
Proof.
  intros [L1 H1] [L2 H2]. apply nth_error_ext_len; [congruence|].
  intros i y1 y2 E1 E2.
  destruct (nth_error p i) as [x|] eqn:Ex.
  - apply b2n_inj. unfold b2n. rewrite (H1 i x y1), (H2 i x y2); auto.
  - apply nth_error_None in Ex. assert (nth_error o1 i <> None) by congruence.
    apply nth_error_Some in H. lia.
Qed.

Lemma masked_sym a c d e p o : masked_with (a, c, d, e) p o -> masked_with (a, c, d, e) o p.
Proof.
  intros [L H]. split; [congruence|]. intros i x y Hx Hy. specialize (H i y x Hy Hx).
  rewrite H, N.lxor_assoc, N.lxor_nilpotent, N.lxor_0_r. reflexivity.
Qed.

(* ---- parse_wire ---- *)

Lemma fits_dec max n : {fits max n} + {exists m, max = Some m /\ (m < Z.of_nat n)%Z}.
Proof.
  destruct max as [m|]; simpl; [|left; exact I].
  destruct (Z_le_dec (Z.of_nat n) m); [left; assumption|right; exists m; split; [auto|lia]].
Qed.

(* the verdict on a complete frame *)
Inductive wire_verdict (mask : bool) (max_size : option Z) (wf : wframe)
  : result frame -> Prop :=
| wv_opcode : kind_of_opcode (w_opcode wf) = None ->
    wire_verdict mask max_size wf (Raise (ProtocolError (s "invalid opcode")))
| wv_mask : kind_of_opcode (w_opcode wf) <> None -> is_masked wf <> mask ->
    wire_verdict mask max_size wf (Raise (ProtocolError (s "incorrect masking")))
| wv_big m : kind_of_opcode (w_opcode wf) <> None -> is_masked wf = mask ->
    max_size = Some m -> ~ fits max_size (length (w_payload wf)) ->
    wire_verdict mask max_size wf
      (Raise (PayloadTooBig (too_big_msg (N.of_nat (length (w_payload wf))) m)))
| wv_ok f key : is_masked wf = mask -> fits max_size (length (w_payload wf)) ->
    wf = on_wire f key -> wire_verdict mask max_size wf (Ok f).

Lemma on_wire_intro wf o : w_opcode wf = rfc_opcode o ->
  wf = on_wire (Frame (w_fin wf) o (w_payload wf) (w_rsv1 wf) (w_rsv2 wf) (w_rsv3 wf)) (w_mask wf).
Proof. intros H. destruct wf; simpl in *. subst. reflexivity. Qed.

Lemma length_field_lt n l ext : length_field n l ext -> n < 2 ^ 64.
Proof.
  intros H. destruct H as [n H|n ext L H|n ext L H].
  - lia.
  - rewrite network_order_be_N in H. pose proof (be_N_lt ext) as B. rewrite L in B. subst n.
    change (256 ^ N.of_nat 2) with 65536 in B. lia.
  - rewrite network_order_be_N in H. pose proof (be_N_lt ext) as B. rewrite L in B. subst n.
    exact B.
Qed.

Lemma run_length {S A} (k : N -> gen S A) n l ext r (x : S) rest :
  length_field n l ext -> r_buffer r = ext ++ rest ->
  run (gbind (if l =? 126 then let* d := read_exact 2 in GRet (be_N d)
              else if l =? 127 then let* d := read_exact 8 in GRet (be_N d)
              else GRet l) k) r x
  = run (k n) (with_buffer r rest) x.
Proof.
  intros H Hb. destruct H as [n H|n ext L H|n ext L H].
  - destruct (N.eqb_spec n 126); [lia|]. destruct (N.eqb_spec n 127); [lia|].
    rewrite run_gbind. simpl. simpl in Hb. rewrite <- Hb. now destruct r.
  - cbn [N.eqb Pos.eqb]. rewrite !run_gbind, (run_read_exact_app 2 ext rest) by (unfold lenZ; auto; lia).
    simpl. rewrite network_order_be_N in H. now subst.
  - cbn [N.eqb Pos.eqb]. rewrite !run_gbind, (run_read_exact_app 8 ext rest) by (unfold lenZ; auto; lia).
    simpl. rewrite network_order_be_N in H. now subst.
Qed.

Lemma with_buffer2 r x y : with_buffer (with_buffer r x) y = with_buffer r y.
Proof. reflexivity. Qed.

Lemma parse_wire_layout {S} mask max_size wf w rest r (x : S) :
  layout wf w -> r_buffer r = w ++ rest ->
  exists res, wire_verdict mask max_size wf res /\
  match res with
  | Ok f => run (parse_wire mask max_size) r x = ODone f (with_buffer r rest) x
  | Raise e => exists r', run (parse_wire mask max_size) r x = OFail e r' x
  end.
Proof.
  intros (ext & b0 & b1 & key & body & Hw & Hfin & H1 & H2 & H3 & Hop & Hm & Hl & Hmask) Hb.
  subst w. unfold parse_wire.
  rewrite run_gbind, (run_read_exact_app 2 [b0; b1] (ext ++ key ++ body ++ rest))
    by (try reflexivity; rewrite Hb; simpl; rewrite <- !app_assoc; reflexivity).
  cbn [obind].
  destruct (bits_head1 b0) as (B7 & B6 & B5 & B4 & B15 & _).
  destruct (bits_head1 b1) as (M7 & _ & _ & _ & _ & M127).
  rewrite B7, B6, B5, B4, B15, M7, M127. unfold b2n. rewrite Hfin, H1, H2, H3, Hop, Hm.
  destruct (opcode_of_N (w_opcode wf)) as [o|] eqn:O.
  2: { exists (Raise (ProtocolError (s "invalid opcode"))). split.
       - constructor. destruct (kind_of_opcode (w_opcode wf)) eqn:K; [|reflexivity].
         assert (KN : kind_of_opcode (w_opcode wf) <> None) by congruence.
         apply kind_opcode in KN as [o E]. rewrite (proj2 (opcode_of_N_rfc _ o) E) in O. discriminate.
       - simpl. eauto. }
  apply opcode_of_N_rfc in O.
  assert (KN : kind_of_opcode (w_opcode wf) <> None) by (apply kind_opcode; eauto).
  fold (is_masked wf).
  destruct (Bool.eqb (is_masked wf) mask) eqn:Em; cbn [negb].
  2: { exists (Raise (ProtocolError (s "incorrect masking"))). split.
       - apply wv_mask; auto. now apply eqb_false_iff.
       - simpl. eauto. }
  apply eqb_prop in Em. subst mask.
  rewrite (run_length _ _ _ _ _ _ (key ++ body ++ rest) Hl) by reflexivity.
  rewrite with_buffer2.
  destruct (fits_dec max_size (length (w_payload wf))) as [Hf|(m & -> & Hbig)].
  2: { exists (Raise (PayloadTooBig (too_big_msg (N.of_nat (length (w_payload wf))) m))). split.
       - eapply wv_big; eauto. simpl. lia.
       - rewrite run_gbind. destruct (Z.ltb_spec m (Z.of_N (N.of_nat (length (w_payload wf))))); [|lia].
         simpl. eauto. }
  eexists (Ok _). split; [eapply wv_ok; eauto; apply on_wire_intro; exact O|].
  rewrite run_gbind.
  assert (HH : run (match max_size with
          | Some m => if (m <? Z.of_N (N.of_nat (length (w_payload wf))))%Z
                      then GRaise (PayloadTooBig (too_big_msg (N.of_nat (length (w_payload wf))) m))
                      else GRet tt
          | None => GRet tt
          end) (with_buffer r (key ++ body ++ rest)) x
          = ODone tt (with_buffer r (key ++ body ++ rest)) x).
  { destruct max_size as [m|]; [|reflexivity]. simpl in Hf.
    destruct (Z.ltb_spec m (Z.of_N (N.of_nat (length (w_payload wf))))); [lia|reflexivity]. }
  rewrite HH. cbn [obind]. clear HH.
  unfold is_masked in *. destruct (w_mask wf) as [[[[a c] d] e]|].
  - destruct Hmask as [-> [Hlen Hmask]].
    rewrite run_gbind, (run_read_exact_app 4 [a; c; d; e] (body ++ rest)) by reflexivity.
    cbn [obind].
    rewrite run_gbind, (run_read_exact_app _ body rest) by (try reflexivity; unfold lenZ; lia).
    cbn [obind]. rewrite apply_mask_4. cbn [glift gbind run]. f_equal. f_equal.
    symmetry. apply masked_unique with (k := (a, c, d, e)) (p := body).
    + apply masked_sym. split; assumption.
    + apply xor_cycle_masked.
  - destruct Hmask as [-> ->]. rewrite run_gbind. cbn [run obind].
    rewrite run_gbind, (run_read_exact_app _ (w_payload wf) rest) by (try reflexivity; unfold lenZ; lia).
    reflexivity.
Qed.

(* Conversely: a returned frame was there. *)
Lemma length_field_inv l ext n :
  l < 128 ->
  (if l =? 126 then length ext = 2%nat /\ be_N ext = n
   else if l =? 127 then length ext = 8%nat /\ be_N ext = n else ext = [] /\ n = l) ->
  length_field n l ext.
Proof.
  intros Hl H. destruct (N.eqb_spec l 126) as [->|]; [|destruct (N.eqb_spec l 127) as [->|]].
  - destruct H. apply len16; rewrite ?network_order_be_N; assumption.
  - destruct H. apply len64; rewrite ?network_order_be_N; assumption.
  - destruct H as [-> ->]. apply len7. lia.
Qed.

Lemma parse_wire_inv {S} mask max_size r (x : S) f r' x' :
  run (parse_wire mask max_size) r x = ODone f r' x' ->
  x' = x /\ r_eof r' = r_eof r /\
  exists w key, r_buffer r = w ++ r_buffer r' /\ layout (on_wire f key) w /\
    is_masked (on_wire f key) = mask /\ fits max_size (length (f_data f)).
Proof.
  unfold parse_wire. rewrite run_gbind. intros H.
  pose proof (run_read_exact_inv 2 r x) as R. destruct (run (read_exact 2) r x) as [? ? ?|a1 r1 x1|? ? ?];
    cbn [obind] in H; try discriminate H.
  destruct R as (-> & E1 & _ & L1 & Hb1).
  destruct a1 as [|b0 [|b1 [|]]]; try discriminate L1; try (unfold lenZ in L1; simpl in L1; lia).
  destruct (bits_head1 b0) as (B7 & B6 & B5 & B4 & B15 & _).
  destruct (bits_head1 b1) as (M7 & _ & _ & _ & _ & M127).
  rewrite B7, B6, B5, B4, B15, M7, M127 in H. 
  destruct (opcode_of_N (b2n b0 mod 16)) as [o|] eqn:O; [|discriminate H].
  apply opcode_of_N_rfc in O.
  destruct (Bool.eqb (N.testbit (b2n b1) 7) mask) eqn:Em; cbn [negb] in H; [|discriminate H].
  apply eqb_prop in Em.
  assert (Hl128 : b2n b1 mod 128 < 128) by (apply N.mod_lt; discriminate).
  set (l := b2n b1 mod 128) in *. rewrite run_gbind in H.
  assert (HL : exists ext n r2, length_field n l ext /\ r_buffer r1 = ext ++ r_buffer r2 /\
             r_eof r2 = r_eof r1 /\
             run (if l =? 126 then let* d := read_exact 2 in GRet (be_N d)
              else if l =? 127 then let* d := read_exact 8 in GRet (be_N d)
              else GRet l) r1 x = ODone n r2 x).
  { destruct (l =? 126) eqn:E126; [|destruct (l =? 127) eqn:E127].
    - rewrite run_gbind in *. pose proof (run_read_exact_inv 2 r1 x) as R.
      destruct (run (read_exact 2) r1 x) as [? ? ?|a2 r2 x2|? ? ?]; cbn [obind] in H; try discriminate H.
      destruct R as (-> & E2 & _ & L2 & Hb2).
      exists a2, (be_N a2), r2. repeat split; auto. apply length_field_inv; auto. rewrite E126.
      split; auto. unfold lenZ in L2. lia.
    - rewrite run_gbind in *. pose proof (run_read_exact_inv 8 r1 x) as R.
      destruct (run (read_exact 8) r1 x) as [? ? ?|a2 r2 x2|? ? ?]; cbn [obind] in H; try discriminate H.
      destruct R as (-> & E2 & _ & L2 & Hb2).
      exists a2, (be_N a2), r2. repeat split; auto. apply length_field_inv; auto. rewrite E126, E127.
      split; auto. unfold lenZ in L2. lia.
    - exists [], l, r1. repeat split; auto. apply length_field_inv; auto. now rewrite E126, E127. }
  destruct HL as (ext & n & r2 & HLf & Hb2 & E2 & HL). rewrite HL in H. cbn [obind] in H. clear HL.
  rewrite run_gbind in H.
  assert (HF : run (match max_size with
          | Some m => if (m <? Z.of_N n)%Z then GRaise (PayloadTooBig (too_big_msg n m)) else GRet tt
          | None => GRet tt
          end) r2 x = ODone tt r2 x /\ fits max_size (N.to_nat n)).
  { destruct max_size as [m|]; [|split; [reflexivity|exact I]]. simpl.
    destruct (Z.ltb_spec m (Z.of_N n)); [discriminate H|]. split; [reflexivity|lia]. }
  destruct HF as [HF Hfit]. rewrite HF in H. cbn [obind] in H. clear HF.
  destruct mask.
  - rewrite run_gbind in H. pose proof (run_read_exact_inv 4 r2 x) as R.
    destruct (run (read_exact 4) r2 x) as [? ? ?|a3 r3 x3|? ? ?]; cbn [obind] in H; try discriminate H.
    destruct R as (-> & E3 & _ & L3 & Hb3).
    destruct a3 as [|k0 [|k1 [|k2 [|k3 [|]]]]]; try (unfold lenZ in L3; simpl in L3; lia).
    rewrite run_gbind in H. pose proof (run_read_exact_inv (Z.of_N n) r3 x) as R.
    destruct (run (read_exact (Z.of_N n)) r3 x) as [? ? ?|a4 r4 x4|? ? ?]; cbn [obind] in H;
      try discriminate H.
    destruct R as (-> & E4 & _ & L4 & Hb4).
    rewrite apply_mask_4 in H. cbn [glift gbind run] in H.
    assert (Hfr := f_equal (fun o => match o with ODone a _ _ => Some a | _ => None end) H).
    assert (Hrd := f_equal (fun o => match o with ODone _ a _ => Some a | _ => None end) H).
    assert (Hst := f_equal (fun o => match o with ODone _ _ a => Some a | _ => None end) H).
    cbv beta iota in Hfr, Hrd, Hst. apply some_inj in Hfr, Hrd, Hst. subst f r4 x'. clear H.
    split; [reflexivity|]. split; [congruence|].
    assert (Len : length (xor_cycle a4 [k0; k1; k2; k3] [k0; k1; k2; k3]) = N.to_nat n).
    { rewrite xor_cycle_length by discriminate. unfold lenZ in L4. lia. }
    exists (b0 :: b1 :: ext ++ [k0; k1; k2; k3] ++ a4), (Some (k0, k1, k2, k3)).
    repeat split.
    + rewrite Hb1, Hb2, Hb3, Hb4. simpl. rewrite <- !app_assoc. reflexivity.
    + exists ext, b0, b1, [k0; k1; k2; k3], a4. simpl.
      repeat split; auto.
      * rewrite Len. replace (N.of_nat (N.to_nat n)) with n by lia. exact HLf.
      * rewrite xor_cycle_length by discriminate. reflexivity.
      * apply masked_sym, xor_cycle_masked.
    + simpl. rewrite Len. exact Hfit.
  - cbn [gbind] in H. rewrite run_gbind in H. pose proof (run_read_exact_inv (Z.of_N n) r2 x) as R.
    destruct (run (read_exact (Z.of_N n)) r2 x) as [? ? ?|a4 r4 x4|? ? ?]; cbn [obind] in H;
      try discriminate H.
    destruct R as (-> & E4 & _ & L4 & Hb4).
    cbn [glift gbind run] in H.
    assert (Hfr := f_equal (fun o => match o with ODone a _ _ => Some a | _ => None end) H).
    assert (Hrd := f_equal (fun o => match o with ODone _ a _ => Some a | _ => None end) H).
    assert (Hst := f_equal (fun o => match o with ODone _ _ a => Some a | _ => None end) H).
    cbv beta iota in Hfr, Hrd, Hst. apply some_inj in Hfr, Hrd, Hst. subst f r4 x'. clear H.
    split; [reflexivity|]. split; [congruence|].
    assert (Len : length a4 = N.to_nat n).
    { unfold lenZ in L4. lia. }
    exists (b0 :: b1 :: ext ++ [] ++ a4), None.
    repeat split.
    + rewrite Hb1, Hb2, Hb4. simpl. rewrite <- !app_assoc. reflexivity.
    + exists ext, b0, b1, [], a4. simpl.
      repeat split; auto.
      rewrite Len. replace (N.of_nat (N.to_nat n)) with n by lia. exact HLf.
    + simpl. rewrite Len. exact Hfit.
Qed.

(* ---- wire ---- *)

Definition key_opt (mask : bool) (key : bytes) : option (byte * byte * byte * byte) :=
  if mask then match key with [a; c; d; e] => Some (a, c, d, e) | _ => None end else None.

Lemma head1_bits f :
  let h := n2b (N.lor (if f_fin f then 128 else 0)
     (N.lor (if f_rsv1 f then 64 else 0)
     (N.lor (if f_rsv2 f then 32 else 0)
     (N.lor (if f_rsv3 f then 16 else 0) (opcode_N (f_opcode f)))))) in
  N.testbit (b2n h) 7 = f_fin f /\ N.testbit (b2n h) 6 = f_rsv1 f /\
  N.testbit (b2n h) 5 = f_rsv2 f /\ N.testbit (b2n h) 4 = f_rsv3 f /\
  b2n h mod 16 = rfc_opcode (f_opcode f).
Proof.
  destruct f as [fin o data r1 r2 r3]; destruct fin, o, r1, r2, r3; vm_compute; auto 10.
Qed.

Lemma head2_bits (mask : bool) l : l < 128 ->
  let h := n2b (N.lor (if mask then 128 else 0) l) in
  N.testbit (b2n h) 7 = mask /\ b2n h mod 128 = l.
Proof.
  intros Hl h.
  assert (T : forallb (fun i => let l := N.of_nat i in
     let h := n2b (N.lor (if mask then 128 else 0) l) in
     Bool.eqb (N.testbit (b2n h) 7) mask && (b2n h mod 128 =? l)) (seq 0 128) = true)
    by (destruct mask; vm_compute; reflexivity).
  rewrite forallb_forall in T. specialize (T (N.to_nat l)). cbv zeta in T.
  rewrite N2Nat.id in T. fold h in T.
  apply andb_true_iff in T as [T1 T2]; [|apply in_seq; lia].
  apply eqb_prop in T1. apply N.eqb_eq in T2. auto.
Qed.

Lemma wire_layout f mask key w : length key = 4%nat ->
  wire f mask key = Ok w -> minimal_layout (on_wire f (key_opt mask key)) w.
Proof.
  intros Hk. unfold wire.
  destruct key as [|k0 [|k1 [|k2 [|k3 [|]]]]]; try discriminate Hk. clear Hk.
  destruct (head1_bits f) as (F7 & F6 & F5 & F4 & F16). cbv zeta in F7, F6, F5, F4, F16.
  set (h1 := n2b _) in *.
  assert (HH : forall ext l, l < 128 -> length_field (lenN (f_data f)) l ext ->
    minimal_length_field (lenN (f_data f)) ext ->
    (if mask then let! data := apply_mask (f_data f) [k0; k1; k2; k3] in
                  Ok ((h1 :: n2b (N.lor (if mask then 128 else 0) l) :: ext) ++ [k0; k1; k2; k3] ++ data)
     else Ok ((h1 :: n2b (N.lor (if mask then 128 else 0) l) :: ext) ++ f_data f)) = Ok w ->
    minimal_layout (on_wire f (key_opt mask [k0; k1; k2; k3])) w).
  { intros ext l Hl Hlf Hmin Hw. exists ext. split; [|exact Hmin].
    destruct (head2_bits mask l Hl) as [M7 M128].
    destruct mask.
    - rewrite apply_mask_4 in Hw. cbn [rbind] in Hw. apply ok_inj in Hw. subst w.
      eexists h1, _, [k0; k1; k2; k3], _. split; [reflexivity|].
      cbn [on_wire w_fin w_rsv1 w_rsv2 w_rsv3 w_opcode w_mask w_payload key_opt].
      unfold b2n in *. rewrite M128. repeat split; auto.
      + rewrite xor_cycle_length by discriminate. reflexivity.
      + apply xor_cycle_masked.
    - apply ok_inj in Hw. subst w.
      eexists h1, _, [], (f_data f). split; [reflexivity|].
      cbn [on_wire w_fin w_rsv1 w_rsv2 w_rsv3 w_opcode w_mask w_payload key_opt].
      unfold b2n in *. rewrite M128. repeat split; auto. }
  destruct (N.ltb_spec (lenN (f_data f)) 126) as [L1|L1]; cbn [rbind].
  { apply (HH [] (lenN (f_data f))); [lia|constructor; lia|].
    unfold minimal_length_field. destruct (N.leb_spec (lenN (f_data f)) 125); [reflexivity|lia]. }
  destruct (N.ltb_spec (lenN (f_data f)) 65536) as [L2|L2]; cbn [rbind].
  { apply (HH (be_bytes 2 (lenN (f_data f))) 126); [lia| |].
    - constructor; [apply be_bytes_length|]. rewrite network_order_be_N. apply be_N_be_bytes_small.
      exact L2.
    - unfold minimal_length_field. rewrite be_bytes_length.
      destruct (N.leb_spec (lenN (f_data f)) 125); [lia|].
      destruct (N.leb_spec (lenN (f_data f)) 65535); [reflexivity|lia]. }
  destruct (N.ltb_spec (lenN (f_data f)) (2 ^ 64)) as [L3|L3]; cbn [rbind]; [|discriminate].
  apply (HH (be_bytes 8 (lenN (f_data f))) 127); [lia| |].
  - constructor; [apply be_bytes_length|]. rewrite network_order_be_N. apply be_N_be_bytes_small.
    exact L3.
  - unfold minimal_length_field. rewrite be_bytes_length.
    destruct (N.leb_spec (lenN (f_data f)) 125); [lia|].
    destruct (N.leb_spec (lenN (f_data f)) 65535); [lia|reflexivity].
Qed.

Lemma wire_succeeds f mask key : length key = 4%nat -> lenN (f_data f) < 2 ^ 64 ->
  exists w, wire f mask key = Ok w.
Proof.
  intros Hk Hl. destruct key as [|k0 [|k1 [|k2 [|k3 [|]]]]]; try discriminate Hk. clear Hk.
  unfold wire. destruct (lenN (f_data f) <? 126), (lenN (f_data f) <? 65536);
    try (destruct mask; rewrite ?apply_mask_4; cbn [rbind]; eauto);
  destruct (N.ltb_spec (lenN (f_data f)) (2 ^ 64)); try lia; rewrite ?apply_mask_4; cbn [rbind]; eauto.
Qed.

(* ---- parse_frame with no extensions ---- *)

(* Frame.parse(read_exact, mask=mask, max_size=max_size, extensions=...) on its own *)
Definition frame_parse {E} (X : ext_ops E) (mask : bool) (max_size : option Z) : gen (list E) frame :=
  parse_frame X (fun l => l) (fun _ l => l) mask max_size.

Lemma frame_parse_noext {E} (X : ext_ops E) mask max r :
  run (frame_parse X mask max) r [] =
  match run (parse_wire mask max) r [] with
  | OSusp g r x => OSusp (gbind g (fun f =>
      let* st := get_state in
      let '(exts', r) := decode_reversed X st f max in
      let* _ := put_state exts' in
      let* f := glift r in
      let* _ := glift (check f) in
      GRet f)) r x
  | ODone f r' x => match check f with Ok _ => ODone f r' [] | Raise e => OFail e r' [] end
  | OFail e r x => OFail e r x
  end.
Proof.
  unfold frame_parse, parse_frame. rewrite run_gbind.
  destruct (run (parse_wire mask max) r []) as [g r' x|f r' x|e r' x] eqn:R; simpl; auto.
  apply parse_wire_inv in R as (-> & _). simpl. destruct (check f); reflexivity.
Qed.

(* ---- close ---- *)

Lemma check_close_ok code : check_close code = Ok tt <-> sendable_close_code code.
Proof.
  unfold check_close, sendable_close_code.
  destruct (existsb (Z.eqb code) EXTERNAL_CLOSE_CODES) eqn:Hx.
  - simpl. split; [intros _|reflexivity].
    apply existsb_exists in Hx as (y & Hy & Hxy). apply Z.eqb_eq in Hxy. subst y.
    simpl in Hy. lia.
  - assert (N : ~ In code EXTERNAL_CLOSE_CODES).
    { intros Hin. rewrite <- not_true_iff_false in Hx. apply Hx. apply existsb_exists.
      exists code. split; [exact Hin|apply Z.eqb_refl]. }
    simpl in N. cbn [orb].
    destruct (Z.leb_spec 3000 code), (Z.ltb_spec code 5000); cbn [andb];
      split; try discriminate; try reflexivity; lia.
Qed.

Lemma check_close_cases code : check_close code = Ok tt \/
  check_close code = Raise (ProtocolError (s "invalid status code")) /\ ~ sendable_close_code code.
Proof.
  destruct (check_close code) as [[]|e] eqn:C; [left; reflexivity|right].
  split.
  - unfold check_close in C. destruct (_ || _); [discriminate|congruence].
  - intros H. apply check_close_ok in H. congruence.
Qed.

Lemma sendable_range code : sendable_close_code code -> (1000 <= code <= 4999)%Z.
Proof. unfold sendable_close_code. lia. Qed.

Lemma parse_serialize_close code reason data :
  serialize_close code reason = Ok data ->
  parse_close data = Ok (code, reason).
Proof.
  unfold serialize_close.
  destruct (check_close_cases code) as [C|[C _]]; rewrite C; cbn [rbind]; [|discriminate].
  apply check_close_ok in C as Cs. apply sendable_range in Cs.
  destruct (utf8_encode reason) as [r|] eqn:U; cbn [rbind]; [|discriminate].
  intros H. apply ok_inj in H. subst data.
  unfold parse_close. rewrite lenN_app. unfold lenN at 1. rewrite be_bytes_length.
  destruct (N.leb_spec 2 (N.of_nat 2 + lenN r)); [|lia].
  rewrite firstn_app_exact, skipn_app_exact by apply be_bytes_length.
  rewrite be_N_be_bytes_small by (change (256 ^ N.of_nat 2) with 65536; lia).
  rewrite Z2N.id by lia. rewrite C. cbn [rbind].
  rewrite (utf8_decode_encode _ _ U). reflexivity.
Qed.

Lemma serialize_parse_close data code reason :
  parse_close data = Ok (code, reason) ->
  (data = [] /\ code = 1005%Z /\ reason = []) \/ serialize_close code reason = Ok data.
Proof.
  unfold parse_close. destruct (N.leb_spec 2 (lenN data)) as [L|L].
  - intros H. right.
    destruct (check_close_cases (Z.of_N (be_N (firstn 2 data)))) as [C|[C _]]; rewrite C in H;
      cbn [rbind] in H; [|discriminate].
    destruct (utf8_decode (skipn 2 data)) as [t|] eqn:U; cbn [rbind] in H; [|discriminate].
    apply ok_inj in H. apply pair_equal_spec in H as [Hc Hr]. subst code reason.
    unfold serialize_close. rewrite C. cbn [rbind].
    rewrite (utf8_encode_decode _ _ U). cbn [rbind]. f_equal.
    rewrite N2Z.id. unfold lenN in L.
    assert (L2 : length (firstn 2 data) = 2%nat) by (rewrite firstn_length; lia).
    rewrite <- L2 at 1. rewrite be_bytes_be_N. apply firstn_skipn.
  - destruct (N.eqb_spec (lenN data) 0) as [Z|Z]; [|discriminate].
    intros H. apply ok_inj in H. apply pair_equal_spec in H as [Hc Hr]. subst code reason. left.
    destruct data; [auto|]. unfold lenN in Z. simpl in Z. lia.
Qed.
