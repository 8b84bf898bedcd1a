(* Facts about the methods of Model/Connection.v, used by the invariants. *)
From Verif Require Import Base.Prelude Base.PreludeFacts Model.Utils Model.Streams Model.Frames
  Model.Http11 Model.Connection Spec.Rfc6455 Spec.FrameSpec Spec.Messages Spec.History
  Proofs.StreamsFacts Proofs.FramesFacts Proofs.ParserFacts Proofs.AtomicFacts.

(* the exceptions raised while reading a frame *)
Definition wire_exn (max : option Z) (e : exn) : Prop :=
  e = EOFError \/ e = ProtocolError (s "invalid opcode") \/ e = ProtocolError (s "incorrect masking") \/
  exists n m, max = Some m /\ (m < Z.of_N n)%Z /\ (n < 2 ^ 64)%N /\ e = PayloadTooBig (too_big_msg n m).

Lemma read_exact_fail {S} n r (x : S) e r' x' :
  (0 <= n)%Z -> run (read_exact n) r x = OFail e r' x' -> e = EOFError /\ x' = x /\ r_eof r = true.
Proof.
  intros Hn H. pose proof (run_read_exact_inv n r x) as R. rewrite H in R.
  destruct R as (-> & -> & [[-> ?]|(-> & -> & _)]); [lia|auto].
Qed.

Lemma wire_fails {S} mask max r (x : S) e r' x' :
  run (parse_wire mask max) r x = OFail e r' x' -> x' = x /\ wire_exn max e /\ (e = EOFError -> r_eof r = true).
Proof.
  unfold parse_wire. rewrite run_gbind. intros H. unfold wire_exn.
  pose proof (run_read_exact_inv 2 r x) as R1.
  destruct (run (read_exact 2) r x) as [? ? ?|a1 r1 x1|e1 r1 x1] eqn:Q1; cbn [obind] in H.
  { discriminate. }
  2: { apply read_exact_fail in Q1 as (-> & -> & K); [|lia]. injection H as <- <- <-. auto. }
  destruct R1 as (-> & E1 & _ & L1 & _).
  destruct a1 as [|b0 [|b1 [|]]]; try (unfold lenZ in L1; simpl in L1; lia).
  destruct (opcode_of_N (N.land (b2n b0) 15)) as [o|].
  2: { injection H as <- <- <-. split; [auto|]. split; [auto|discriminate]. }
  destruct (negb (Bool.eqb (bit (b2n b1) 128) mask)).
  { injection H as <- <- <-. split; [auto|]. split; [auto|discriminate]. }
  set (l := N.land (b2n b1) 127) in *. rewrite run_gbind in H.
  assert (HL : forall n r2 x2, run (if (l =? 126)%N then let* d := read_exact 2 in GRet (be_N d)
              else if (l =? 127)%N then let* d := read_exact 8 in GRet (be_N d)
              else GRet l) r1 x = ODone n r2 x2 -> x2 = x /\ r_eof r2 = r_eof r1 /\ (n < 2 ^ 64)%N).
  { intros n r2 x2. destruct (l =? 126)%N; [|destruct (l =? 127)%N].
    - rewrite run_gbind. pose proof (run_read_exact_inv 2 r1 x) as R.
      destruct (run (read_exact 2) r1 x) as [? ? ?|a2 r3 x3|? ? ?]; cbn [obind]; try discriminate.
      destruct R as (-> & E2 & _ & L2 & _). cbn [run]. intros K.
      assert (n = be_N a2) by congruence. assert (r2 = r3) by congruence. subst.
      split; [congruence|]. split; [exact E2|]. pose proof (be_N_lt a2) as B. unfold lenZ in L2.
      assert (length a2 = 2) as L' by lia. rewrite L' in B. change (256 ^ N.of_nat 2)%N with 65536%N in B.
      eapply N.lt_trans; [exact B|reflexivity].
    - rewrite run_gbind. pose proof (run_read_exact_inv 8 r1 x) as R.
      destruct (run (read_exact 8) r1 x) as [? ? ?|a2 r3 x3|? ? ?]; cbn [obind]; try discriminate.
      destruct R as (-> & E2 & _ & L2 & _). cbn [run]. intros K.
      assert (n = be_N a2) by congruence. assert (r2 = r3) by congruence. subst.
      split; [congruence|]. split; [exact E2|]. pose proof (be_N_lt a2) as B. unfold lenZ in L2.
      assert (length a2 = 8) as L' by lia. rewrite L' in B. exact B.
    - cbn [run]. intros K. assert (n = l) by congruence. assert (r2 = r1) by congruence. subst n r2.
      split; [congruence|]. split; [reflexivity|]. unfold l. change 127%N with (N.ones 7). rewrite N.land_ones.
      eapply N.lt_trans; [apply N.mod_lt; discriminate|reflexivity]. }
  assert (HLf : forall e2 r2 x2, run (if (l =? 126)%N then let* d := read_exact 2 in GRet (be_N d)
              else if (l =? 127)%N then let* d := read_exact 8 in GRet (be_N d)
              else GRet l) r1 x = OFail e2 r2 x2 -> e2 = EOFError /\ x2 = x /\ r_eof r1 = true).
  { intros e2 r2 x2. destruct (l =? 126)%N; [|destruct (l =? 127)%N]; [| |discriminate];
    rewrite run_gbind;
    (match goal with |- context [run (read_exact ?n) r1 x] =>
       destruct (run (read_exact n) r1 x) as [? ? ?|? ? ?|? ? ?] eqn:Q; cbn [obind]; try discriminate;
       apply read_exact_fail in Q as (-> & -> & K); [|lia]; intros J; assert (e2 = EOFError) by congruence;
       assert (x2 = x) by congruence; auto end). }
  destruct (run (if (l =? 126)%N then _ else _) r1 x) as [? ? ?|n r2 x2|e2 r2 x2]; cbn [obind] in H.
  { discriminate. }
  2: { destruct (HLf _ _ _ eq_refl) as (-> & -> & K). assert (e = EOFError) by congruence.
       assert (x' = x) by congruence. subst. split; [auto|]. split; [auto|]. congruence. }
  destruct (HL _ _ _ eq_refl) as (-> & E2 & Ln). clear HL HLf. rewrite run_gbind in H.
  assert (HM : forall e3 r3 x3, run (match max with
          | Some m => if (m <? Z.of_N n)%Z then GRaise (PayloadTooBig (too_big_msg n m)) else GRet tt
          | None => GRet tt end) r2 x = OFail e3 r3 x3 -> x3 = x /\ exists m, max = Some m /\ (m < Z.of_N n)%Z /\
             e3 = PayloadTooBig (too_big_msg n m)).
  { intros e3 r3 x3. destruct max as [m|]; [|discriminate]. destruct (Z.ltb_spec m (Z.of_N n)); [|discriminate].
    cbn [run]. intros K. split; [congruence|]. exists m. repeat split; auto. congruence. }
  assert (HM2 : forall u r3 x3, run (match max with
          | Some m => if (m <? Z.of_N n)%Z then GRaise (PayloadTooBig (too_big_msg n m)) else GRet tt
          | None => GRet tt end) r2 x = ODone u r3 x3 -> x3 = x /\ r3 = r2).
  { intros u r3 x3. destruct max as [m|]; [destruct (m <? Z.of_N n)%Z|]; cbn [run]; [discriminate| |];
      intros K; (split; congruence). }
  destruct (run (match max with Some m => _ | None => _ end) r2 x) as [? ? ?|u r3 x3|e3 r3 x3]; cbn [obind] in H.
  { discriminate. }
  2: { destruct (HM _ _ _ eq_refl) as (-> & m & E3 & E4 & E5). assert (e = e3) by congruence.
       assert (x' = x) by congruence. subst. split; [auto|]. split; [|discriminate]. right. right. right.
       exists n, m. auto. }
  destruct (HM2 _ _ _ eq_refl) as (-> & ->). clear HM HM2.
  destruct mask.
  - rewrite run_gbind in H. pose proof (run_read_exact_inv 4 r2 x) as R.
    destruct (run (read_exact 4) r2 x) as [? ? ?|a3 r3 x3|e3 r3 x3] eqn:Q; cbn [obind] in H.
    { discriminate. }
    2: { apply read_exact_fail in Q as (-> & -> & K); [|lia]. assert (e = EOFError) by congruence.
         assert (x' = x) by congruence. subst. split; [auto|]. split; [auto|]. congruence. }
    destruct R as (-> & E3 & _ & L3 & _).
    destruct a3 as [|k0 [|k1 [|k2 [|k3 [|]]]]]; try (unfold lenZ in L3; simpl in L3; lia).
    rewrite run_gbind in H.
    destruct (run (read_exact (Z.of_N n)) r3 x) as [? ? ?|a4 r4 x4|e4 r4 x4] eqn:Q4; cbn [obind] in H.
    { discriminate. }
    2: { apply read_exact_fail in Q4 as (-> & -> & K); [|lia]. assert (e = EOFError) by congruence.
         assert (x' = x) by congruence. subst. split; [auto|]. split; [auto|]. congruence. }
    rewrite apply_mask_4 in H. cbn [glift gbind run] in H. discriminate.
  - cbn [gbind] in H. rewrite run_gbind in H.
    destruct (run (read_exact (Z.of_N n)) r2 x) as [? ? ?|a4 r4 x4|e4 r4 x4] eqn:Q4; cbn [obind] in H.
    { discriminate. }
    2: { apply read_exact_fail in Q4 as (-> & -> & K); [|lia]. assert (e = EOFError) by congruence.
         assert (x' = x) by congruence. subst. split; [auto|]. split; [auto|]. congruence. }
    cbn [glift gbind run] in H. discriminate.
Qed.

Lemma pure_no_susp {S A} (g : gen S A) : forall r x g' r' x',
  pure_reads g -> r_eof r = true -> run g r x <> OSusp g' r' x'.
Proof.
  induction g as [a|e|p k IH|n k IH|k IH|k IH|k IH|y k IH|k IH]; intros r x g' r' x' P Er;
    cbn [pure_reads run] in *; try discriminate; try contradiction.
  - destruct (find_lf_from p (r_buffer r)); [apply IH; auto|]. rewrite Er. apply IH; auto.
  - destruct (n <? 0)%Z; [apply IH; auto|]. destruct (lenZ (r_buffer r) <? n)%Z; [|apply IH; auto].
    rewrite Er. apply IH; auto.
  - rewrite Er. apply IH; auto.
  - destruct (r_buffer r); [rewrite Er|]; apply IH; auto.
Qed.

Section Conn.
Context {E : Type} (X : ext_ops E).
Implicit Type c : conn E.

(* ---- the rule for the body of the parser's loop ---- *)

Definition add_event (f : frame) c : conn E := set_events c (c_events c ++ [EvFrame f]).

Lemma parse_body_preserved (Z : Prop) (P : conn E -> Prop) (Q : exn -> conn E -> Prop) :
  (* the end of the stream, after a close frame *)
  (forall c, Z -> P c -> c_close_rcvd c = true -> c_eof_sent c = false -> P (fst (send_eof c))) ->
  (* the end of the stream, otherwise *)
  (forall c, Z -> P c -> c_close_rcvd c = false -> Q EOFError c) ->
  (* a frame isn't acceptable *)
  (forall c e, P c -> (e = EOFError -> Z) -> wire_exn (next_max_size c) e -> Q e c) ->
  (forall c f0 exts e, P c -> fits (next_max_size c) (length (f_data f0)) ->
     decode_reversed X (c_exts c) f0 (next_max_size c) = (exts, Raise e) -> Q e (set_exts c exts)) ->
  (forall c f0 f exts e, P c -> fits (next_max_size c) (length (f_data f0)) ->
     decode_reversed X (c_exts c) f0 (next_max_size c) = (exts, Ok f) ->
     check f = Raise e -> Q e (set_exts c exts)) ->
  (* a frame is accepted *)
  (forall c f0 f exts, P c -> fits (next_max_size c) (length (f_data f0)) ->
     decode_reversed X (c_exts c) f0 (next_max_size c) = (exts, Ok f) -> check f = Ok tt ->
     let '(c', r) := process_frame X f (set_exts c exts) in
     match r with Ok _ => P (add_event f c') | Raise e => Q e c' end) ->
  preserved Z P Q (parse_body X).
Proof.
  intros H1 H2 H3 H4 H5 H6 r c Hz Pc. unfold parse_body. rewrite run_gbind. cbn [at_eof run].
  assert (HF : match run (let* c0 := get_state in
      if false then GRaise EOFError else
      let* f := parse_frame X c_exts set_exts (is_server (c_side c0)) (next_max_size c0) in
      let* _ := gmeth (process_frame X f) in
      gmeth (mupd (fun c => set_events c (c_events c ++ [EvFrame f])))) r c with
    | ODone _ _ c' => P c'
    | OFail e _ c' => Q e c'
    | OSusp _ _ c' => r_eof r = true -> P c'
    end).
  { cbn [get_state gbind run]. rewrite run_gbind. unfold parse_frame. rewrite run_gbind.
    destruct (run (parse_wire (is_server (c_side c)) (next_max_size c)) r c) as [g r' c'|f0 r' c'|e r' c'] eqn:W;
      cbn [obind].
    - intros Er. exfalso. eapply pure_no_susp; [apply pure_parse_wire|exact Er|exact W].
    - apply parse_wire_inv in W as (-> & _ & w & key & _ & _ & _ & Fi).
      cbn [get_state gbind run]. destruct (decode_reversed X (c_exts c) f0 (next_max_size c)) as [exts [f|e]] eqn:D.
      + cbn [put_state gbind run glift]. destruct (check f) as [[]|e] eqn:C.
        * cbn [gbind run glift obind]. rewrite run_gbind, run_gmeth_reader.
          specialize (H6 c f0 f exts Pc Fi D C).
          destruct (process_frame X f (set_exts c exts)) as [c' [[]|e]]; cbn [obind]; [|exact H6].
          rewrite run_gmeth_reader. exact H6.
        * cbn [gbind run glift obind]. eapply H5; eassumption.
      + cbn [put_state gbind run glift obind]. eapply H4; eassumption.
    - apply wire_fails in W as (-> & W & We). auto. }
  destruct (r_buffer r) as [|x buf].
  - destruct (r_eof r) eqn:Er; cbn [obind]; [|discriminate].
    cbn [get_state gbind run]. destruct (c_close_rcvd c) eqn:Cr; [|apply H2; auto].
    destruct (c_eof_sent c) eqn:Es.
    + cbn [gbind run]. auto.
    + rewrite run_gbind, run_gmeth_reader. specialize (H1 c (Hz eq_refl) Pc Cr Es). unfold send_eof in *. rewrite Es in *.
      cbn [obind run]. auto.
  - cbn [obind]. exact HF.
Qed.

(* ---- sending a frame ---- *)

Definition conn_key c : option (byte * byte * byte * byte) :=
  if is_client (c_side c)
  then let k := c_keys c (c_draws c) in Some (k0 k, k1 k, k2 k, k3 k) else None.

Definition after_send c (exts : list E) (w : bytes) : conn E :=
  set_writes (let c := set_exts c exts in
              if is_client (c_side c) then set_draws c (S (c_draws c)) else c) (c_writes c ++ [w]).

Lemma send_frame_spec f c :
  (exists e, snd (send_frame X f c) = Raise e /\ exists exts, fst (send_frame X f c) = set_exts c exts) \/
  (c_state c = OPEN /\ check f = Ok tt /\
   exists f' exts w, encode_in_order X (c_exts c) f = (exts, Ok f') /\
     minimal_layout (on_wire f' (conn_key c)) w /\
     send_frame X f c = (after_send c exts w, Ok tt)).
Proof.
  assert (Id : c = set_exts c (c_exts c)) by (destruct c; reflexivity).
  unfold send_frame.
  destruct (c_state c) eqn:St;
    try (left; eexists; split; [reflexivity|exists (c_exts c); exact Id]).
  unfold serialize. destruct (check f) as [[]|e] eqn:C.
  2: { left. exists e. split; [reflexivity|]. exists (c_exts c). reflexivity. }
  destruct (encode_in_order X (c_exts c) f) as [exts [f'|e]] eqn:En.
  2: { left. exists e. split; [reflexivity|]. exists exts. reflexivity. }
  destruct (wire f' (is_client (c_side c)) (key_bytes (c_keys c (c_draws c)))) as [w|e] eqn:W.
  2: { left. exists e. split; [reflexivity|]. exists exts. reflexivity. }
  right. split; [reflexivity|]. split; [reflexivity|]. exists f', exts, w. split; [reflexivity|]. split.
  - apply wire_layout in W; [|reflexivity].
    replace (key_opt (is_client (c_side c)) (key_bytes (c_keys c (c_draws c)))) with (conn_key c) in W; [exact W|].
    unfold conn_key, key_opt. destruct (is_client (c_side c)); reflexivity.
  - unfold after_send. cbn [c_side set_exts]. destruct (is_client (c_side c)); reflexivity.
Qed.

Lemma encode_keeps exts f exts' f' : keeps_framing X ->
  encode_in_order X exts f = (exts', Ok f') ->
  f_opcode f' = f_opcode f /\ f_fin f' = f_fin f /\ (is_ctrl (f_opcode f) = true -> f' = f).
Proof.
  intros [K _]. revert f exts'. induction exts as [|e exts IH]; intros f exts' H; cbn [encode_in_order] in H.
  - injection H as <- <-. auto.
  - destruct (ext_encode X e f) as [e' [f1|x]] eqn:En; [|discriminate].
    destruct (encode_in_order X exts f1) as [ex r] eqn:E2. injection H as <- ->.
    apply K in En as (O1 & F1 & C1). apply IH in E2 as (O2 & F2 & C2).
    split; [congruence|]. split; [congruence|]. intros C. rewrite C2 by congruence. auto.
Qed.

Lemma decode_keeps exts f n exts' f' : keeps_framing X ->
  decode_reversed X exts f n = (exts', Ok f') ->
  f_opcode f' = f_opcode f /\ f_fin f' = f_fin f /\ (is_ctrl (f_opcode f) = true -> f' = f).
Proof.
  intros [_ K]. revert f' exts'. induction exts as [|e exts IH]; intros f' exts' H; cbn [decode_reversed] in H.
  - injection H as <- <-. auto.
  - destruct (decode_reversed X exts f n) as [ex [f1|x]] eqn:En; [|discriminate].
    destruct (ext_decode X e f1 n) as [e' r] eqn:E2. injection H as <- ->.
    apply K in E2 as (O1 & F1 & C1). destruct (IH _ _ eq_refl) as (O2 & F2 & C2).
    split; [congruence|]. split; [congruence|]. intros C. rewrite C1 by congruence. auto.
Qed.

(* ---- from calls to histories ---- *)

Inductive api_meth : @meth E -> Prop :=
| api_continuation data fin : api_meth (send_continuation X data fin)
| api_text data fin : api_meth (send_text X data fin)
| api_binary data fin : api_meth (send_binary X data fin)
| api_close code reason : api_meth (send_close X code reason)
| api_ping data : api_meth (send_ping X data)
| api_pong data : api_meth (send_pong X data).

(* the methods called in a list of calls *)
Definition meth_of (k : call) : option (@meth E) :=
  match k with
  | CSendContinuation data fin => Some (send_continuation X data fin)
  | CSendText data fin => Some (send_text X data fin)
  | CSendBinary data fin => Some (send_binary X data fin)
  | CSendClose code reason => Some (send_close X code reason)
  | CSendPing data => Some (send_ping X data)
  | CSendPong data => Some (send_pong X data)
  | _ => None
  end.

Lemma calls_hist (M : @meth E -> Prop) (Z : Prop) m0 ks : forall m pe pw,
  (forall k f, In k ks -> meth_of k = Some f -> M f) -> (In CReceiveEof ks -> Z) ->
  hist X M Z m0 pe pw m ->
  let '(m', rs) := do_calls X m ks in
  hist X M Z m0 (pe ++ flat_map delivered_by rs) (pw ++ flat_map written_by rs) m'.
Proof.
  induction ks as [|k ks IH]; intros m pe pw HM HZ H; cbn [do_calls].
  - cbn [flat_map]. now rewrite !app_nil_r.
  - assert (S : let '(m', r) := do_call X m k in hist X M Z m0 (pe ++ delivered_by r) (pw ++ written_by r) m').
    { pose proof (HM k) as HMk.
      destruct k; cbn [do_call meth_of] in *;
        try (match goal with |- context [on_conn m ?f] =>
               pose proof (h_meth X M Z m0 pe pw m f H (HMk f (or_introl eq_refl) eq_refl)) as K;
               unfold on_conn in *; destruct (f (m_conn m)) as [c [u|e]];
               cbn [ret_of delivered_by written_by fst] in *; now rewrite !app_nil_r end).
      - pose proof (h_data X M Z m0 pe pw m data H) as K. destruct (receive_data X m data) as [m' [u|e]];
          cbn [ret_of delivered_by written_by fst] in *; now rewrite !app_nil_r.
      - pose proof (h_eof X M Z m0 pe pw m (HZ (or_introl eq_refl)) H) as K. destruct (receive_eof X m) as [m' [u|e]];
          cbn [ret_of delivered_by written_by fst] in *; now rewrite !app_nil_r.
      - unfold events_received. cbn [delivered_by written_by]. rewrite app_nil_r. apply h_events. exact H.
      - unfold data_to_send. cbn [delivered_by written_by]. rewrite app_nil_r. apply h_writes. exact H. }
    destruct (do_call X m k) as [m' r].
    specialize (IH m' _ _ (fun k f Hk => HM k f (or_intror Hk)) (fun Hk => HZ (or_intror Hk)) S).
    destruct (do_calls X m' ks) as [m'' rs]. cbn [flat_map]. now rewrite !app_assoc in *.
Qed.

Lemma api_frozen f c : api_meth f -> frozen (fst (f c)) = frozen c.
Proof.
  assert (SF : forall g c, frozen (fst (send_frame X g c)) = frozen c).
  { intros g c1. destruct (send_frame_spec g c1) as [(e & _ & exts & ->)|(_ & _ & f' & exts & w & _ & _ & ->)];
      [reflexivity|]. unfold after_send. cbn [c_side set_exts]. destruct (is_client (c_side c1)); reflexivity. }
  intros H. destruct H; cbn [send_continuation send_text send_binary send_close send_ping send_pong].
  - unfold send_continuation. destruct (negb (c_expect_cont c)); [reflexivity|]. rewrite SF. reflexivity.
  - unfold send_text. destruct (c_expect_cont c); [reflexivity|]. rewrite SF. reflexivity.
  - unfold send_binary. destruct (c_expect_cont c); [reflexivity|]. rewrite SF. reflexivity.
  - unfold send_close. destruct (c_expect_cont c); [reflexivity|].
    destruct (match code with None => _ | Some x => _ end) as [data|e]; [|reflexivity].
    unfold mseq. specialize (SF (mkframe true CLOSE data) c).
    destruct (send_frame X (mkframe true CLOSE data) c) as [c1 [u|e]]; [|exact SF]. cbn [fst] in SF.
    unfold start_closing, mseq, mupd. cbn [c_side set_state].
    destruct (is_server (c_side c1)); [|exact SF]. unfold send_eof.
    destruct (c_eof_sent (set_state c1 CLOSING)); exact SF.
  - apply SF.
  - apply SF.
Qed.
End Conn.
