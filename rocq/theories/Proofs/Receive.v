(* Receiving one frame between two frames. *)
From Verif Require Import Base.Prelude Base.PreludeFacts Model.Utils Model.Streams Model.Frames
  Model.Http11 Model.Connection Spec.Rfc6455 Spec.FrameSpec Spec.Messages Spec.History
  Proofs.StreamsFacts Proofs.FramesFacts Proofs.ParserFacts Proofs.AtomicFacts Proofs.ConnectionFacts.

Section Receive.
Context {E : Type} (X : ext_ops E).
Implicit Type c : conn E.

(* the parser fails with e *)
Definition failed c (r : reader) (e : exn) : machine E * result unit :=
  let '(code, reason) := close_code_for e in
  let '(c', res) := fail_connection X code reason c in
  match res with
  | Ok _ => (Machine c' r PDead (Some e), Raise e)
  | Raise e' => (Machine c' r PDead None, Raise e')
  end.

Definition frame_received c (f : frame) (r : reader) : machine E * result unit :=
  let '(c', p) := process_frame X f c in
  match p with
  | Ok _ => (Machine (add_event f c') reader_init (PRun (parse_body X)) None, Ok tt)
  | Raise e => failed c' r e
  end.

Lemma receive_frame m wf w : between_frames X m -> layout wf w ->
  let c := m_conn m in
  exists res r, wire_verdict (is_server (c_side c)) (next_max_size c) wf res /\
  receive_data X m w =
  match res with
  | Raise e => failed c r e
  | Ok f0 =>
    let '(exts, d) := decode_reversed X (c_exts c) f0 (next_max_size c) in
    match rbind d (fun f => rbind (check f) (fun _ => Ok f)) with
    | Raise e => failed (set_exts c exts) r e
    | Ok f => frame_received (set_exts c exts) f r
    end
  end.
Proof.
  intros (Hp & Hr & He) L c. destruct m as [cm rd ps ex]. cbn [m_parser m_reader m_exc m_conn] in *. subst ps rd ex.
  subst c. rename cm into c. rewrite receive_data_eq. cbn [m_reader reader_init r_eof]. rewrite step_parser_eq.
  cbn [grow_m m_parser m_reader m_conn m_exc]. set (r0 := grow reader_init w).
  assert (B0 : r_buffer r0 = w ++ []) by (rewrite app_nil_r; reflexivity).
  destruct (parse_wire_layout (is_server (c_side c)) (next_max_size c) wf w [] r0 c L B0) as (res & V & R).
  assert (Ne : exists b0 w', r_buffer r0 = b0 :: w').
  { destruct L as (ext & b0 & b1 & key & body & -> & _). cbn. eauto. }
  destruct Ne as (b0 & w' & Ne).
  assert (Body : run (parse_body X) r0 c =
     run (let* f := parse_frame X c_exts set_exts (is_server (c_side c)) (next_max_size c) in
          let* _ := gmeth (process_frame X f) in
          gmeth (mupd (fun c => set_events c (c_events c ++ [EvFrame f])))) r0 c).
  { unfold parse_body. rewrite run_gbind. cbn [run at_eof]. rewrite Ne. cbn [obind run get_state gbind]. reflexivity. }
  assert (Fails : forall r' e c', run (parse_body X) r0 c = OFail e r' c' ->
     parse_all X (parse_body X) r0 c = Some (OFail e r' c')).
  { intros r' e c' H. apply (parse_all_intro X 1). cbn [run_parser]. now rewrite H. }
  rewrite run_gbind in Body. unfold parse_frame in Body. rewrite run_gbind in Body.
  destruct res as [f0|e].
  - rewrite R in Body. cbn [obind run get_state gbind] in Body.
    destruct (decode_reversed X (c_exts c) f0 (next_max_size c)) as [exts d] eqn:D.
    rewrite run_gbind in Body. cbn [put_state run obind] in Body.
    destruct d as [f|e]; cbn [rbind glift gbind run obind] in *.
    + destruct (check f) as [[]|e] eqn:C; cbn [rbind glift gbind run obind] in *.
      * rewrite run_gbind, run_gmeth_reader in Body. unfold frame_received.
        destruct (process_frame X f (set_exts c exts)) as [c' [[]|e]] eqn:Pf; cbn [obind] in Body.
        -- rewrite run_gmeth_reader in Body. cbn [mupd] in Body.
           exists (Ok f0), r0. split; [exact V|].
           assert (P : parse_all X (parse_body X) r0 c = Some (OSusp (parse_body X) reader_init (add_event f c'))).
           { apply (parse_all_intro X 2). cbn [run_parser]. rewrite Body. reflexivity. }
           rewrite P, D. cbn [rbind]. rewrite C. cbn [rbind]. rewrite Pf. reflexivity.
        -- exists (Ok f0), (with_buffer r0 []). split; [exact V|]. rewrite (Fails _ _ _ Body), D. cbn [rbind].
           rewrite C. cbn [rbind]. rewrite Pf. reflexivity.
      * exists (Ok f0), (with_buffer r0 []). split; [exact V|]. rewrite (Fails _ _ _ Body), D. cbn [rbind].
        rewrite C. reflexivity.
    + exists (Ok f0), (with_buffer r0 []). split; [exact V|]. rewrite (Fails _ _ _ Body), D. reflexivity.
  - destruct R as (r' & R). rewrite R in Body. cbn [obind] in Body.
    exists (Raise e), r'. split; [exact V|]. rewrite (Fails _ _ _ Body). reflexivity.
Qed.

(* without extensions, a frame that's acceptable *)
Lemma receive_good_frame m f key w : between_frames X m -> c_exts (m_conn m) = [] ->
  layout (on_wire f key) w -> is_masked (on_wire f key) = is_server (c_side (m_conn m)) ->
  fits (next_max_size (m_conn m)) (length (f_data f)) -> check f = Ok tt ->
  exists r, receive_data X m w = frame_received (m_conn m) f r.
Proof.
  intros Id Nx L Hm Hf Hc. destruct (receive_frame m _ w Id L) as (res & r & V & R). cbn zeta in *.
  exists r. rewrite R.
  assert (Kn : kind_of_opcode (w_opcode (on_wire f key)) <> None) by (apply kind_opcode; simpl; eauto).
  inversion V as [K'|K' M|mm K' M EM F|f0 key0 M F O]; subst res; [congruence|congruence| |].
  - contradiction.
  - assert (f0 = f) as ->.
    { unfold on_wire in O. injection O as O1 O2 O3 O4 O5 O6 O7. destruct f as [fi o d a1 a2 a3], f0 as [fi' o' d' b1 b2 b3].
      simpl in *. subst. f_equal. clear -O5. destruct o, o'; try reflexivity; discriminate. }
    rewrite Nx. cbn [decode_reversed rbind]. rewrite Hc. cbn [rbind].
    replace (set_exts (m_conn m) []) with (m_conn m); [reflexivity|]. rewrite <- Nx. destruct (m_conn m); reflexivity.
Qed.

End Receive.
