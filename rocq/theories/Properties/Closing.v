(* C08, C09, C15-C17, C21-C23: closing and failing sans-I/O connections, and delivery from
   one connection to another. *)
From Verif Require Import Base.Prelude Base.PreludeFacts Model.Utils Model.Streams Model.Frames
  Model.Http11 Model.Connection Spec.Rfc6455 Spec.FrameSpec Spec.Messages Spec.History
  Proofs.StreamsFacts Proofs.FramesFacts Proofs.ParserFacts Proofs.AtomicFacts Proofs.ConnectionFacts
  Proofs.Steps Proofs.MessagesFacts Proofs.Invariants Proofs.SendInvariants Proofs.MoreInvariants
  Proofs.Receive Proofs.Failing Properties.FrameCodec Properties.Connection.

(* A connection without extensions, open at the start, that received data, maybe, but not
   the end of the stream, and found nothing wrong with it so far. *)
Record healthy {E} (X : ext_ops E) (c0 : conn E) (ks : list call) (m : machine E) (rs : list ret) : Prop := {
  h_fresh : fresh OPEN c0;
  h_exts : c_exts c0 = [];
  h_framing : keeps_framing X;
  h_max : forall n, c_max_size c0 = Some n -> (0 <= n)%Z;
  h_history : history X c0 ks m rs;
  h_fine : no_receive_raised ks rs;
  h_no_eof : ~ In CReceiveEof ks }.

(* Every call to receive_data received a whole frame.  By C07, it doesn't matter how the
   same bytes are split. *)
Definition whole_frames (ks : list call) : Prop :=
  forall data, In (CReceiveData data) ks -> exists wf, layout wf data.

(* The connection is open or closing, and isn't in the middle of receiving a frame. *)

Section Healthy.
Context {E : Type} {X : ext_ops E} {c0 : conn E} {ks : list call} {m : machine E} {rs : list ret}.
Hypothesis H : healthy X c0 ks m rs.

Lemma h_waits : waits X (fun _ => False) m.
Proof.
  destruct (h_fresh _ _ _ _ _ H) as (_ & _ & _ & _ & _ & _ & He & Hw & _).
  destruct (calls_steps X (fun k => In k ks) c0 ks m rs He Hw) as (W & _); auto.
  - apply Forall_forall. auto.
  - exact (h_history _ _ _ _ _ H).
Qed.

Lemma h_alive : exists g, m_parser m = PRun g.
Proof.
  pose proof (h_history _ _ _ _ _ H) as Hh. unfold history in Hh. rewrite start_parse_body in Hh.
  apply (still_alive X ks _ _ _ Hh (h_fine _ _ _ _ _ H)). cbn. eauto.
Qed.

Lemma h_exc : m_exc m = None.
Proof. pose proof h_waits as W. destruct h_alive as (g & Hg). unfold waits in W. rewrite Hg in W. apply W. Qed.

Lemma h_phase : phase_of m = Alive.
Proof. unfold phase_of. destruct h_alive as (g & ->). reflexivity. Qed.

Lemma step_parser_r_eof (m1 m2 : machine E) r : step_parser X m1 = (m2, r) -> r_eof (m_reader m2) = r_eof (m_reader m1).
Proof.
  rewrite step_parser_eq. destruct (m_parser m1) as [g|]; [|now intros [= <- _]].
  pose proof (run_parser_eof X (parser_fuel (m_reader m1)) g (m_reader m1) (m_conn m1)) as Re.
  destruct (parse_all_total X g (m_reader m1) (m_conn m1)) as [(g' & r' & c' & Hp)|(x & r' & c' & Hp)]; rewrite Hp;
  unfold parse_all in Hp; rewrite Hp in Re.
  - intros [= <- _]. exact Re.
  - destruct (close_code_for x) as [code reason]. destruct (fail_connection X code reason c') as [c'' [u|x']];
    intros [= <- _]; exact Re.
Qed.

Lemma h_reader : r_eof (m_reader m) = false.
Proof.
  pose proof (h_history _ _ _ _ _ H) as Hh. pose proof (h_no_eof _ _ _ _ _ H) as Ne. unfold history in Hh.
  rewrite start_parse_body in Hh.
  assert (G : forall ks1 m0 m3 rs3, do_calls X m0 ks1 = (m3, rs3) -> ~ In CReceiveEof ks1 -> r_eof (m_reader m0) = false -> r_eof (m_reader m3) = false).
  { clear. intros ks1. induction ks1 as [|k ks1 IH]; intros m0 m3 rs3; cbn [do_calls].
    - intros [= <- _]. auto.
    - destruct (do_call X m0 k) as [m1 r] eqn:Dk. destruct (do_calls X m1 ks1) as [m2 rs2] eqn:Dks. intros [= <- _] Ne Al.
      apply (IH m1 m2 rs2 Dks); [intros Hi; apply Ne; now right|].
      destruct k; cbn [do_call] in Dk; unfold on_conn in Dk;
      try (match type of Dk with (let '(_, _) := ?t in _) = _ => destruct t end; injection Dk as <- _; exact Al).
      + rewrite receive_data_eq, Al in Dk. destruct (step_parser X _) as [m4 r4] eqn:Ds. injection Dk as <- _.
        rewrite (step_parser_r_eof _ _ _ Ds). exact Al.
      + exfalso. apply Ne. now left. }
  eapply G; [exact Hh|exact Ne|reflexivity].
Qed.

Lemma h_inv : exists is, written (all_writes rs m) is /\
  inv_all X (Abs (core (m_conn m)) is (all_events rs m) Alive).
Proof.
  destruct (use_inv X c0 ks m rs (h_history _ _ _ _ _ H) OPEN (inv_all X) (h_fresh _ _ _ _ _ H)) as (is & W & I).
  - apply all_start; apply H.
  - intros x y _. apply all_step. apply H.
  - rewrite h_phase in I. eauto.
Qed.

Lemma h_noext : c_exts (m_conn m) = [].
Proof. destruct h_inv as (is & _ & I). exact (ia_exts _ _ I). Qed.

Lemma h_resume k m' r : do_call X m k = (m', r) ->
  exists is l l', written (all_writes rs m) is /\ written (all_writes (rs ++ [r]) m') (is ++ l) /\
    all_events (rs ++ [r]) m' = all_events rs m ++ l' /\
    inv_all X (Abs (core (m_conn m)) is (all_events rs m) Alive) /\
    asteps X (fun k' => In k' [k]) (Abs (core (m_conn m)) is (all_events rs m) Alive)
      (Abs (core (m_conn m')) (is ++ l) (all_events rs m ++ l') (phase_of m')).
Proof.
  intros D. destruct h_inv as (is0 & W0 & I).
  destruct (h_fresh _ _ _ _ _ H) as (_ & _ & _ & _ & _ & _ & He & Hw & _).
  destruct (resume X c0 ks m rs [k] m' [r] He Hw (h_history _ _ _ _ _ H)) as (is & l & l' & W & W' & Ev & A).
  { cbn [do_calls]. now rewrite D. }
  rewrite h_phase in A. rewrite (written_unique _ _ _ W0 W) in I. exists is, l, l'. auto.
Qed.

Lemma receives_one k : is_receive k -> receives (fun k' => In k' [k]).
Proof. intros R k' [<-|[]]. destruct k; try contradiction; cbn; repeat split; discriminate. Qed.

(* when receiving raises, the connection was failed with this error *)
Lemma h_raise k m' e : is_receive k -> do_call X m k = (m', RRaise e) ->
  phase_of m' = Dead (Some e).
Proof.
  intros R D. destruct (h_resume k m' (RRaise e) D) as (is & l & l' & _ & _ & _ & I & A).
  assert (St : exists m1 r, m_exc m1 = None /\ m_parser m1 = m_parser m /\ step_parser X m1 = (m', Raise r) /\ r = e).
  { destruct k; try contradiction; cbn [do_call] in D.
    - rewrite receive_data_eq, h_reader in D. destruct (step_parser X (grow_m m data)) as [m3 [[]|e3]] eqn:Ds; [discriminate|].
      injection D as <- <-. eexists _, _. split; [|split; [|split; [exact Ds|reflexivity]]]; [apply h_exc|reflexivity].
    - unfold receive_eof, feed_eof in D. rewrite h_reader in D. destruct (step_parser X _) as [m3 [[]|e3]] eqn:Ds in D; [discriminate|].
      injection D as <- <-. eexists _, _. split; [|split; [|split; [exact Ds|reflexivity]]]; [apply h_exc|reflexivity]. }
  destruct St as (m1 & r & Hx & Hp & Ds & ->). rewrite step_parser_eq in Ds. destruct h_alive as (g & Hg).
  rewrite Hp, Hg in Ds.
  destruct (parse_all_total X g (m_reader m1) (m_conn m1)) as [(g' & r' & c' & Hq)|(x & r' & c' & Hq)]; rewrite Hq in Ds; [discriminate|].
  destruct (close_code_for x) as [code reason] eqn:Cc. destruct (fail_connection X code reason c') as [c'' [u|x']];
    injection Ds as <- <-; [reflexivity|].
  exfalso. unfold phase_of in A. cbn [m_parser m_exc] in A. rewrite Hx in A.
  destruct (fail_last X _ _ _ None (receives_one k R) A eq_refl eq_refl) as (z & e0 & A1 & Pz & S).
  pose proof (all_steps X _ _ _ (h_framing _ _ _ _ _ H) I A1) as Iz.
  inversion S; subst; fields; try discriminate.
  - injection Pz as ->.
    match goal with Ho : c_state c = OPEN |- _ => destruct (ia_failing _ _ Iz e0 eq_refl Ho) as [Cl _] end.
    pose proof (ia_exts _ _ Iz) as Nx. fields.
    destruct Cl as [->|(data & Sc & Ld)]; [contradiction|].
    match goal with Ho : _ \/ _ |- _ => destruct Ho as [(_ & e' & Sc')|(data' & e' & Sc' & U)]; [congruence|] end.
    assert (data' = data) as -> by congruence.
    assert (Ck : check (mkframe true CLOSE data) = Ok tt).
    { unfold check, mkframe. cbn. destruct (N.ltb_spec 125 (lenN data)); [lia|reflexivity]. }
    destruct U as [(U & _)|[(_ & _ & U)|[(_ & _ & D9)|(_ & _ & _ & f2 & D9 & L2)]]]; try congruence.
    + rewrite Nx in D9. discriminate.
    + rewrite Nx in D9. cbn [encode_in_order] in D9. injection D9 as _ <-. cbn in L2. lia.
Qed.
End Healthy.

Lemma fail_step_eof {E} (X : ext_ops E) K (z y : abs E) e0 e : astep X K z y -> a_ph z = Failing e0 ->
  a_ph y = Dead (Some e) -> c_eof_sent (a_c y) = true.
Proof. intros S. destruct S; fields; intros Pz Py; try discriminate; auto; subst; contradiction || congruence. Qed.

(* ---- C17 ---- *)

(* the close code sent for an error *)
Definition failure_code (e : exn) : option Z :=
  match e with
  | ProtocolError _ => Some 1002%Z
  | UnicodeDecodeError _ _ => Some 1007%Z
  | PayloadTooBig _ => Some 1009%Z
  | EOFError => None
  | _ => Some 1011%Z
  end.

Definition no_close_in (l : list item) : Prop := forall f key, In (Sent f key) l -> ~ is_close f.

Lemma no_close_sent l : ~ has_close (sent_frames l) -> no_close_in l.
Proof.
  intros N f key Hin Hf. apply N. apply Exists_exists. exists f. split; [|exact Hf].
  apply in_flat_map. exists (Sent f key). split; [exact Hin|]. now left.
Qed.

Theorem C17_failing_the_connection :
  forall E (X : ext_ops E) c0 ks m rs k m' e,
    healthy X c0 ks m rs ->
    is_receive k -> do_call X m k = (m', RRaise e) ->
    exists is l,
      written (all_writes rs m) is /\
      written (all_writes (rs ++ [RRaise e]) m') (is ++ l) /\
      In Eof (is ++ l) /\
      (* if a close frame was neither sent before, nor received in the same call *)
      (c_state (m_conn m) = OPEN ->
       (forall f, In f (frames_of (all_events (rs ++ [RRaise e]) m')) -> ~ is_close f) ->
       match failure_code e with
       | Some code => exists l0 f key reason,
           l = l0 ++ [Sent f key; Eof] /\ no_close_in l0 /\ is_close f /\
           parse_close (f_data f) = Ok (code, reason)
       | None => exists l0, l = l0 ++ [Eof] /\ no_close_in l0
       end).
Proof.
  intros E X c0 ks m rs k m' e H R D.
  pose proof (h_raise H k m' e R D) as Pm.
  destruct (h_resume H k m' (RRaise e) D) as (is & l & l' & W & W' & Ev & I & A).
  exists is, l. split; [exact W|]. split; [exact W'|].
  pose proof (all_steps X _ _ _ (h_framing _ _ _ _ _ H) I A) as Iy.
  rewrite Pm in A.
  destruct (fail_last X _ _ _ (Some e) (receives_one k R) A eq_refl eq_refl) as (z & e0 & A1 & Pz & S).
  pose proof (all_steps X _ _ _ (h_framing _ _ _ _ _ H) I A1) as Iz.
  pose proof (receive_echo X _ _ _ (h_framing _ _ _ _ _ H) (receives_one k R) I A1) as Ec. cbn [a_c] in Ec.
  change (c_state (core (m_conn m))) with (c_state (m_conn m)) in Ec.
  pose proof (steps_const X _ _ _ A1) as (_ & _ & _ & (l1 & Hl1) & (l1' & Hl1')). cbn [a_is a_ev] in Hl1, Hl1'.
  assert (Es : c_eof_sent (core (m_conn m')) = true).
  { exact (fail_step_eof X _ _ _ e0 e S Pz eq_refl). }
  split.
  { apply count_eof_in. pose proof (ia_eof _ _ Iy) as Ie. unfold inv_eof in Ie. cbn [a_is a_c] in Ie. rewrite Es in Ie. lia. }
  intros So Nf.
  assert (So' : c_state (a_c z) = OPEN).
  { destruct (Ec So) as [Ec1|Ec1]; [rewrite Pz; discriminate|exact Ec1|].
    exfalso. apply Exists_exists in Ec1 as (f & Hf & Hc). apply (Nf f); [|exact Hc]. rewrite Ev.
    assert (Sub : exists l2, all_events rs m ++ l' = a_ev z ++ l2).
    { pose proof (steps_const X _ _ _ (as_step X _ _ _ _ (as_refl X _ z) S)) as (_ & _ & _ & _ & (l2 & Hl2)). eauto. }
    destruct Sub as (l2 & ->). unfold frames_of in *. rewrite flat_map_app. apply in_or_app. auto. }
  assert (Nc : ~ has_close (sent_frames (a_is z))).
  { intros Hc. apply (ia_close_sent _ _ Iz) in Hc. congruence. }
  assert (Nc1 : no_close_in l1).
  { apply no_close_sent. intros Hc. apply Nc. rewrite Hl1, sent_frames_app. apply Exists_app. auto. }
  destruct (ia_failing _ _ Iz e0 Pz So') as [Cl Ef].
  inversion S; subst; fields; try discriminate; try contradiction.
  - injection Pz as ->.
    match goal with Hq : Dead _ = Dead _ |- _ => injection Hq as -> | _ => idtac end.
    match goal with Hq : sendable _ _ _ _ _ |- _ => destruct Hq as (_ & _ & En & _) end.
    pose proof (ia_exts _ _ Iz) as Nx. fields. rewrite Nx in En. cbn [encode_in_order] in En. injection En as _ <-.
    match goal with Hq : _ ++ _ :: eof_items c = is ++ l |- _ => unfold eof_items in Hq; rewrite Ef, Hl1, <- app_assoc in Hq; apply app_inv_head in Hq as <- end.
    match goal with Hq : serialize_close _ _ = Ok data |- _ => apply parse_serialize_close in Hq as Pc end.
    assert (Fc : failure_code e0 = Some (fst (close_code_for e0))).
    { destruct e0; try reflexivity. exfalso. match goal with Hq : _ <> 1006%Z |- _ => apply Hq; reflexivity end. }
    rewrite Fc. eexists l1, _, _, _. split; [reflexivity|]. split; [exact Nc1|]. split; [reflexivity|exact Pc].
  - match goal with Hq : _ \/ _ |- _ => destruct Hq as [Hq|Hq]; [|congruence] end.
    assert (e = EOFError) as -> by (destruct e; try discriminate; reflexivity).
    match goal with Hq : _ ++ eof_items c = is ++ l |- _ => unfold eof_items in Hq; rewrite Ef, Hl1, <- app_assoc in Hq; apply app_inv_head in Hq as <- end.
    cbn [failure_code]. exists l1. auto.
Qed.

Example C17_applies :
  (* too big; a reserved opcode; a close frame with an invalid reason; the end of the stream *)
  (exists m rs, history no_ext ex_client [CSendText (b "he") false; CReceiveData (bs [130; 126; 4; 0]%N)] m rs /\
    nth 1 rs RNone = RRaise (PayloadTooBig (s "over size limit (1024 > 1000 bytes)")) /\
    map (fun w => firstn 2 w) (all_writes rs m) = [bs [1; 130]%N; bs [136; 165]%N; []] /\ c_state (m_conn m) = CLOSING) /\
  (exists m rs, history no_ext ex_server [CReceiveData (bs [131; 128; 0; 0; 0; 0]%N)] m rs /\
    rs = [RRaise (ProtocolError (s "invalid opcode"))] /\
    all_writes rs m = [bs [136; 16; 3; 234]%N ++ b "invalid opcode"; []]) /\
  (exists m rs, history no_ext ex_server [CReceiveData (bs [136; 131; 0; 0; 0; 0; 3; 232; 255]%N)] m rs /\
    rs = [RRaise (UnicodeDecodeError (s "invalid start byte") 0)] /\
    all_writes rs m = [bs [136; 34; 3; 239]%N ++ b "invalid start byte at position 0"; []]) /\
  (exists m rs, history no_ext ex_server [CReceiveData (bs [129]%N); CReceiveEof] m rs /\
    rs = [RNone; RRaise EOFError] /\ all_writes rs m = [[]]).
Proof. repeat split; apply by_running; vm_compute; auto. Qed.

(* ---- between two frames ---- *)

Lemma between_receive {E} (X : ext_ops E) m wf w m' : between_frames X m -> layout wf w ->
  receive_data X m w = (m', Ok tt) -> between_frames X m'.
Proof.
  intros B L D. destruct (receive_frame X m wf w B L) as (res & r & _ & R). cbn zeta in R. rewrite D in R.
  assert (Nf : forall c r e, failed X c r e <> (m', Ok tt)).
  { intros c r0 e. unfold failed. destruct (close_code_for e) as [code reason].
    destruct (fail_connection X code reason c) as [c' [u|e']]; discriminate. }
  destruct res as [f0|e]; [|exfalso; eapply Nf; symmetry; exact R].
  destruct (decode_reversed X (c_exts (m_conn m)) f0 (next_max_size (m_conn m))) as [exts d].
  destruct (rbind d (fun f => rbind (check f) (fun _ => Ok f))) as [f|e]; [|exfalso; eapply Nf; symmetry; exact R].
  unfold frame_received in R. destruct (process_frame X f (set_exts (m_conn m) exts)) as [c' [u|e]].
  - injection R as ->. repeat split.
  - exfalso. eapply Nf; symmetry; exact R.
Qed.

Lemma between_calls {E} (X : ext_ops E) ks : forall m m' rs, between_frames X m -> do_calls X m ks = (m', rs) ->
  no_receive_raised ks rs -> ~ In CReceiveEof ks -> whole_frames ks -> between_frames X m'.
Proof.
  induction ks as [|k ks IH]; intros m m' rs B; cbn [do_calls].
  - intros [= <- <-]. auto.
  - destruct (do_call X m k) as [m1 r] eqn:Dk. destruct (do_calls X m1 ks) as [m2 rs2] eqn:Dks. intros [= <- <-] Nr Ne Wf.
    apply (IH m1 m2 rs2); auto.
    + destruct k; cbn [do_call] in Dk; unfold on_conn in Dk;
      try (match type of Dk with (let '(_, _) := ?t in _) = _ => destruct t end; injection Dk as <- <-; exact B).
      * destruct (Wf data (or_introl eq_refl)) as (wf & L). destruct (receive_data X m data) as [m3 [[]|e]] eqn:Rd.
        -- injection Dk as <- <-. eapply between_receive; eassumption.
        -- injection Dk as <- <-. exfalso. apply (Nr (CReceiveData data) e); [now left|exact I].
      * exfalso. apply Ne. now left.
    + intros k0 e Hin. apply (Nr k0 e). now right.
    + intros Hin. apply Ne. now right.
    + intros data Hin. apply Wf. now right.
Qed.

Lemma h_between {E} (X : ext_ops E) c0 ks m rs : healthy X c0 ks m rs -> whole_frames ks -> between_frames X m.
Proof.
  intros H Wf. pose proof (h_history _ _ _ _ _ H) as Hh. unfold history in Hh. rewrite start_parse_body in Hh.
  eapply between_calls; [|exact Hh|apply H|apply H|exact Wf]. repeat split.
Qed.

(* a frame that can't be accepted *)
Lemma h_bad_frame {E} (X : ext_ops E) c0 ks m rs wf w : healthy X c0 ks m rs -> whole_frames ks -> layout wf w ->
  (exists e, wire_verdict (is_server (c_side c0)) (next_max_size (m_conn m)) wf (Raise e) /\
     exists m', do_call X m (CReceiveData w) = (m', RRaise e)) \/
  (exists f key, is_masked wf = is_server (c_side c0) /\ fits (next_max_size (m_conn m)) (length (f_data f)) /\ wf = on_wire f key).
Proof.
  intros H Wf L. pose proof (h_between X c0 ks m rs H Wf) as B.
  assert (Sd : c_side (m_conn m) = c_side c0).
  { destruct (use_steps X c0 ks m rs (h_history _ _ _ _ _ H) OPEN (h_fresh _ _ _ _ _ H)) as (is' & _ & A).
    apply steps_const in A as (A & _). exact A. }
  destruct (receive_frame X m wf w B L) as (res & r & V & R). cbn zeta in V, R. rewrite Sd in V.
  destruct res as [f0|e].
  - right. inversion V as [| | |f key M F O]; subst. exists f0, key. auto.
  - left. exists e. split; [exact V|]. cbn [do_call].
    destruct (receive_data X m w) as [m' [[]|e']] eqn:Rd.
    + exfalso. unfold failed in R. destruct (close_code_for e) as [code reason].
      destruct (fail_connection X code reason (m_conn m)) as [c' [u|e']]; discriminate.
    + exists m'. cbn [ret_of]. assert (D : do_call X m (CReceiveData w) = (m', RRaise e')).
      { cbn [do_call]. rewrite Rd. reflexivity. }
      apply (h_raise H) in D; [|exact I]. unfold failed in R. destruct (close_code_for e) as [code reason].
      destruct (fail_connection X code reason (m_conn m)) as [c' [u|e2]]; injection R as -> ->; [reflexivity|].
      discriminate D.
Qed.

(* ---- C09, second part ---- *)

(* The first frame with which a message would exceed max_size is refused.  (By C17 an open
   connection then sends a close frame with code 1009.) *)
Theorem C09_oversize_refused :
  forall E (X : ext_ops E) c0 ks m rs max_size done current wf w,
    healthy X c0 ks m rs -> whole_frames ks ->
    c_max_size c0 = Some max_size ->
    message_sequence (frames_of (all_events rs m)) done current ->
    layout wf w -> kind_of_opcode (w_opcode wf) <> None ->
    is_masked wf = is_server (c_side c0) ->
    (max_size < Z.of_nat (message_size current) + Z.of_nat (length (w_payload wf)))%Z ->
    exists m' msg, do_call X m (CReceiveData w) = (m', RRaise (PayloadTooBig msg)).
Proof.
  intros E X c0 ks m rs max done cur wf w H Wf Mx Ms L Ko Km Big.
  assert (Nm : next_max_size (m_conn m) = Some (max - Z.of_nat (message_size cur))%Z).
  { destruct (h_inv H) as (is & _ & I). destruct (ia_messages _ _ I) as (done' & cur' & M & C & _).
    destruct (message_sequence_unique _ _ _ _ _ Ms M) as [-> ->]. cbn [a_c] in C.
    change (c_cur_size (m_conn m) = size_of cur') in C.
    assert (Mm : c_max_size (m_conn m) = Some max).
    { destruct (use_steps X c0 ks m rs (h_history _ _ _ _ _ H) OPEN (h_fresh _ _ _ _ _ H)) as (is' & _ & A).
      apply steps_const in A as (_ & A & _). rewrite <- Mx. exact A. }
    unfold next_max_size. rewrite Mm, C. destruct cur'; cbn [size_of]; [|reflexivity].
    f_equal. unfold message_size. simpl. lia. }
  destruct (h_bad_frame X c0 ks m rs wf w H Wf L) as [(e & V & m' & D)|(f & key & _ & F & ->)].
  - inversion V; subst; try congruence. eauto.
  - exfalso. rewrite Nm in F. cbn in F, Big. lia.
Qed.

(* a message of 600 bytes so far, and a frame of 401 *)
Example C09_oversize_applies :
  exists m rs, history no_ext ex_client [CReceiveData (bs [1; 126; 2; 88]%N ++ repeat (n2b 97) 600)] m rs /\
    rs = [RNone] /\ length (frames_of (all_events rs m)) = 1 /\
    snd (do_call no_ext m (CReceiveData (bs [128; 126; 1; 145]%N ++ repeat (n2b 97) 401))) =
      RRaise (PayloadTooBig (s "over size limit (401 > 400 bytes)")).
Proof. apply by_running. vm_compute. auto. Qed.

(* ---- C21, second part ---- *)

(* A server refuses frames that aren't masked, and a client frames that are. *)
Theorem C21_wrong_masking_refused :
  forall E (X : ext_ops E) c0 ks m rs wf w,
    healthy X c0 ks m rs -> whole_frames ks ->
    layout wf w -> kind_of_opcode (w_opcode wf) <> None ->
    is_masked wf <> is_server (c_side c0) ->
    exists m', do_call X m (CReceiveData w) = (m', RRaise (ProtocolError (s "incorrect masking"))).
Proof.
  intros E X c0 ks m rs wf w H Wf L Ko Km.
  destruct (h_bad_frame X c0 ks m rs wf w H Wf L) as [(e & V & m' & D)|(f & key & M & _)]; [|contradiction].
  inversion V; subst; try congruence. eauto.
Qed.

Example C21_wrong_masking_applies :
  exists m rs, history no_ext ex_server [CReceiveData (bs [129; 129; 0; 0; 0; 0; 97]%N)] m rs /\ rs = [RNone] /\
    snd (do_call no_ext m (CReceiveData (bs [129; 1; 97]%N))) = RRaise (ProtocolError (s "incorrect masking")).
Proof. apply by_running. vm_compute. auto. Qed.

(* ---- C16 ---- *)

(* what is written when a server has sent a close frame *)
Definition server_eof (sd : side) : list bytes := match sd with SERVER => [[]] | CLIENT => [] end.

Theorem C16_close_received :
  forall E (X : ext_ops E) c0 ks m rs f key w code reason done,
    healthy X c0 ks m rs -> whole_frames ks ->
    (* the frame received: a valid close frame, that fits *)
    layout (on_wire f key) w -> is_close f -> check f = Ok tt ->
    parse_close (f_data f) = Ok (code, reason) ->
    is_masked (on_wire f key) = is_server (c_side c0) ->
    fits (c_max_size c0) (length (f_data f)) ->
    (* no message is in progress *)
    message_sequence (frames_of (all_events rs m)) done [] ->
    exists m', do_call X m (CReceiveData w) = (m', RNone) /\
      c_close_code (m_conn m') = Some code /\ c_close_reason (m_conn m') = Some reason /\
      c_events (m_conn m') = c_events (m_conn m) ++ [EvFrame f] /\
      c_state (m_conn m') = CLOSING /\
      (c_state (m_conn m) = OPEN ->
       exists key' w', minimal_layout (on_wire (mkframe true CLOSE (f_data f)) key') w' /\
         c_writes (m_conn m') = c_writes (m_conn m) ++ [w'] ++ server_eof (c_side c0)) /\
      (c_state (m_conn m) <> OPEN -> c_writes (m_conn m') = c_writes (m_conn m)).
Proof.
  intros E X c0 ks m rs f key w code reason done H Wf L Hf Hc Pc Km Fi Ms.
  pose proof (h_between X c0 ks m rs H Wf) as B.
  destruct (use_steps X c0 ks m rs (h_history _ _ _ _ _ H) OPEN (h_fresh _ _ _ _ _ H)) as (is' & _ & A).
  apply steps_const in A as (Sd & Mm & _). cbn [a_c] in Sd, Mm.
  change (c_side (m_conn m) = c_side c0) in Sd. change (c_max_size (m_conn m) = c_max_size c0) in Mm.
  destruct (h_inv H) as (is & _ & I). destruct (ia_messages _ _ I) as (done' & cur' & M & C & _).
  destruct (message_sequence_unique _ _ _ _ _ Ms M) as [-> <-]. cbn [a_c size_of] in C.
  change (c_cur_size (m_conn m) = None) in C.
  assert (Nm : next_max_size (m_conn m) = c_max_size c0).
  { unfold next_max_size. rewrite Mm, C. destruct (c_max_size c0); reflexivity. }
  pose proof (h_noext H) as Nx.
  destruct (receive_good_frame X m f key w B Nx L) as (r & R).
  { now rewrite Sd. } { now rewrite Nm. } { exact Hc. }
  cbn [do_call]. rewrite R. unfold frame_received, process_frame. unfold is_close in Hf. rewrite Hf.
  rewrite Pc. cbn [c_cur_size set_close set_close_rcvd]. rewrite C. cbn [c_state set_close set_close_rcvd].
  assert (Ld : (lenN (f_data f) <= 125)%N).
  { unfold check in Hc. destruct (f_rsv1 f || f_rsv2 f || f_rsv3 f); [discriminate|]. rewrite Hf in Hc. cbn [is_ctrl] in Hc.
    destruct (N.ltb_spec 125 (lenN (f_data f))); [discriminate|lia]. }
  set (c2 := set_close (set_close_rcvd (m_conn m) true) code reason).
  destruct (ia_open _ _ I) as [So|[So _]]; cbn [a_c] in So; change (c_state (m_conn m)) with (c_state (core (m_conn m))); rewrite So; cbn [is_open].
  - assert (Es : c_eof_sent (m_conn m) = false).
    { destruct (ia_eof_last _ _ I) as [[I1 _]|I1]; [|discriminate]. cbn [a_c] in I1.
      destruct (c_eof_sent (m_conn m)) eqn:Q; [exfalso; apply I1; assumption|reflexivity]. }
    unfold mseq. change (c_state (m_conn m) = OPEN) in So.
    assert (Nu : forall exts e, ~ unsendable X c2 (mkframe true CLOSE (f_data f)) exts e).
    { intros exts e U. apply (no_pong_trouble X c2 f) in U; auto. now rewrite Hf. }
    destruct (send_frame_step X (mkframe true CLOSE (f_data f)) c2)
      as [(exts' & e' & -> & U)|(f' & exts' & w' & -> & S & L')]; [exfalso; eapply Nu; exact U|].
    destruct S as (_ & _ & En & _). change (c_exts c2) with (c_exts (m_conn m)) in En. rewrite Nx in En.
    cbn [encode_in_order] in En. injection En as <- <-.
    unfold start_closing, mseq, mupd, mret, send_eof. cbn [c_side set_state]. rewrite after_send_side.
    change (c_side c2) with (c_side (m_conn m)). rewrite Sd.
    destruct (c_side c0); cbn [is_server server_eof].
    + cbn [c_eof_sent set_state]. rewrite after_send_eof. change (c_eof_sent c2) with (c_eof_sent (m_conn m)). rewrite Es.
      eexists. split; [reflexivity|].
      cbn [m_conn add_event c_close_code c_close_reason c_events c_state c_writes set_events set_writes set_eof_sent set_state].
      rewrite after_send_events, after_send_writes, <- app_assoc.
      unfold after_send. cbn [c_side set_exts]. change (c_side c2) with (c_side (m_conn m)). rewrite Sd. cbn [is_client].
      split; [reflexivity|]. split; [reflexivity|]. split; [reflexivity|]. split; [reflexivity|]. split; [|congruence].
      intros _. exists (conn_key c2), w'. split; [exact L'|reflexivity].
    + eexists. split; [reflexivity|].
      cbn [m_conn add_event c_close_code c_close_reason c_events c_state c_writes set_events set_writes set_eof_sent set_state].
      rewrite after_send_events, after_send_writes.
      unfold after_send. cbn [c_side set_exts]. change (c_side c2) with (c_side (m_conn m)). rewrite Sd. cbn [is_client].
      split; [reflexivity|]. split; [reflexivity|]. split; [reflexivity|]. split; [reflexivity|]. split; [|congruence].
      intros _. exists (conn_key c2), w'. split; [exact L'|]. reflexivity.
  - change (c_state (m_conn m) = CLOSING) in So. eexists. split; [reflexivity|].
    split; [reflexivity|]. split; [reflexivity|]. split; [reflexivity|]. split; [exact So|]. split; [discriminate|reflexivity].
Qed.

Example C16_applies :
  exists m rs, history no_ext ex_server [CReceiveData (bs [129; 129; 0; 0; 0; 0; 97]%N)] m rs /\ rs = [RNone] /\
    (let '(m', r) := do_call no_ext m (CReceiveData (bs [136; 130; 0; 0; 0; 0; 3; 233]%N)) in
     r = RNone /\ c_close_code (m_conn m') = Some 1001%Z /\ c_state (m_conn m') = CLOSING /\
     c_writes (m_conn m') = [bs [136; 2; 3; 233]%N; []]).
Proof. apply by_running. vm_compute. auto 10. Qed.

(* ---- C15 ---- *)

Lemma ping_len f : check f = Ok tt -> is_ctrl (f_opcode f) = true -> (lenN (f_data f) <= 125)%N.
Proof.
  intros Hc Hf. unfold check in Hc. destruct (f_rsv1 f || f_rsv2 f || f_rsv3 f); [discriminate|]. rewrite Hf in Hc.
  destruct (N.ltb_spec 125 (lenN (f_data f))); [discriminate|lia].
Qed.

(* It isn't true: when the close frame was sent and the peer's wasn't received, any ping
   fails the connection; nothing that is received later is accepted. *)
Theorem C15_ping_while_closing_refuted :
  forall E (X : ext_ops E) c0 ks m rs f key w,
    healthy X c0 ks m rs -> whole_frames ks ->
    c_state (m_conn m) <> OPEN ->
    (forall g, In g (frames_of (all_events rs m)) -> ~ is_close g) ->
    layout (on_wire f key) w -> f_opcode f = PING -> check f = Ok tt ->
    is_masked (on_wire f key) = is_server (c_side c0) ->
    fits (next_max_size (m_conn m)) (length (f_data f)) ->
    exists m' msg, do_call X m (CReceiveData w) = (m', RRaise (InvalidState msg)) /\
      c_close_code (m_conn m') = c_close_code (m_conn m) /\
      forall ks' m'' rs', do_calls X m' ks' = (m'', rs') ->
        forall k' r', In (k', r') (combine ks' rs') -> is_receive k' -> exists e', r' = RRaise e'.
Proof.
  intros E X c0 ks m rs f key w H Wf So Nc L Hf Hc Km Fi.
  pose proof (h_between X c0 ks m rs H Wf) as B.
  destruct (use_steps X c0 ks m rs (h_history _ _ _ _ _ H) OPEN (h_fresh _ _ _ _ _ H)) as (is' & _ & A).
  apply steps_const in A as (Sd & Mm & _). change (c_side (m_conn m) = c_side c0) in Sd.
  pose proof (h_noext H) as Nx. destruct (h_inv H) as (is & _ & I).
  assert (Cr : c_close_rcvd (m_conn m) = false).
  { destruct (c_close_rcvd (m_conn m)) eqn:Q; [|reflexivity]. exfalso.
    destruct (ia_close_rcvd _ _ I) as (_ & I2 & _). specialize (I2 eq_refl Q). apply Exists_exists in I2 as (g & Hg & Hg').
    exact (Nc g Hg Hg'). }
  destruct (receive_good_frame X m f key w B Nx L) as (r & R); auto. { now rewrite Sd. }
  assert (G : exists m' msg, do_call X m (CReceiveData w) = (m', RRaise (InvalidState msg)) /\
      c_close_code (m_conn m') = c_close_code (m_conn m)).
  { cbn [do_call]. rewrite R. unfold frame_received, process_frame. rewrite Hf, Cr.
    assert (Sf : exists msg, send_frame X (mkframe true PONG (f_data f)) (m_conn m) = (m_conn m, Raise (InvalidState msg))).
    { unfold send_frame. destruct (c_state (m_conn m)); try contradiction; eauto. }
    destruct Sf as (msg & ->). unfold failed. cbn [close_code_for].
    unfold fail_connection, mseq, mret, send_eof. 
    assert (Op : is_open (c_state (m_conn m)) = false) by (destruct (c_state (m_conn m)); try contradiction; reflexivity).
    rewrite Op, andb_false_r. destruct (c_eof_sent (m_conn m)); eexists _, msg; split; reflexivity. }
  destruct G as (m' & msg & D & Cc). exists m', msg. split; [exact D|]. split; [exact Cc|].
  intros ks' m'' rs' D'.
  destruct (C18_errors_are_sticky E X c0 (ks ++ [CReceiveData w]) m' (rs ++ [RRaise (InvalidState msg)]) (CReceiveData w) (InvalidState msg)) with (ks' := ks') (m' := m'') (rs' := rs') as (S1 & _); auto.
  - pose proof (h_history _ _ _ _ _ H) as Hh. unfold history in *. revert Hh. generalize (start X (parse_body X) c0).
    clear -D. revert rs. induction ks as [|k ks IH]; intros rs m0; cbn [do_calls app].
    + intros [= <- <-]. now rewrite D.
    + destruct (do_call X m0 k) as [m1 r1]. destruct (do_calls X m1 ks) as [m2 rs2] eqn:D2. intros [= <- <-].
      now rewrite (IH _ _ D2).
  - pose proof (h_history _ _ _ _ _ H) as Hh. unfold history in Hh.
    assert (Ln : length ks = length rs).
    { clear -Hh. revert Hh. generalize (start X (parse_body X) c0). revert rs. induction ks as [|k ks IH]; intros rs m0; cbn [do_calls].
      - now intros [= _ <-].
      - destruct (do_call X m0 k) as [m1 r1]. destruct (do_calls X m1 ks) as [m2 rs2] eqn:D2. intros [= <- <-]. simpl. f_equal. eauto. }
    clear -Ln. revert rs Ln. induction ks as [|k ks IH]; intros [|r rs] Ln; try discriminate; cbn [app combine]; [now left|].
    right. apply IH. now injection Ln.
  - exact Logic.I.
Qed.

(* such a state is reached by sending a close frame *)
Example C15_refuted_applies :
  exists m rs, history no_ext ex_client [CSendClose (Some 1000%Z) []] m rs /\ c_state (m_conn m) = CLOSING /\
    snd (do_calls no_ext m [CReceiveData (bs [137; 0]%N); CReceiveData (bs [136; 2; 3; 232]%N)]) =
      [RRaise (InvalidState (s "cannot write to a WebSocket in the CLOSING state")); RRaise RuntimeError] /\
    c_close_code (m_conn (fst (do_calls no_ext m [CReceiveData (bs [137; 0]%N); CReceiveData (bs [136; 2; 3; 232]%N)]))) = None.
Proof. apply by_running. vm_compute. auto. Qed.

(* What is true: pings received before the close frame is sent, or after the peer's close
   frame was received, are fine. *)
Theorem C15_partial :
  forall E (X : ext_ops E) c0 ks m rs f key w,
    healthy X c0 ks m rs -> whole_frames ks ->
    c_state (m_conn m) = OPEN \/ Exists is_close (frames_of (all_events rs m)) ->
    layout (on_wire f key) w -> f_opcode f = PING -> check f = Ok tt ->
    is_masked (on_wire f key) = is_server (c_side c0) ->
    fits (next_max_size (m_conn m)) (length (f_data f)) ->
    exists m', do_call X m (CReceiveData w) = (m', RNone) /\
      c_events (m_conn m') = c_events (m_conn m) ++ [EvFrame f].
Proof.
  intros E X c0 ks m rs f key w H Wf So L Hf Hc Km Fi.
  pose proof (h_between X c0 ks m rs H Wf) as B.
  destruct (use_steps X c0 ks m rs (h_history _ _ _ _ _ H) OPEN (h_fresh _ _ _ _ _ H)) as (is' & _ & A).
  apply steps_const in A as (Sd & Mm & _). change (c_side (m_conn m) = c_side c0) in Sd.
  pose proof (h_noext H) as Nx. destruct (h_inv H) as (is & _ & I).
  destruct (receive_good_frame X m f key w B Nx L) as (r & R); auto. { now rewrite Sd. }
  cbn [do_call]. rewrite R. unfold frame_received, process_frame. rewrite Hf.
  destruct (c_close_rcvd (m_conn m)) eqn:Cr; [eexists; split; reflexivity|].
  destruct So as [So|So].
  2: { exfalso. destruct (ia_close_rcvd _ _ I) as (I1 & _). specialize (I1 So). cbn [a_c] in I1.
       change (c_close_rcvd (m_conn m) = true) in I1. congruence. }
  destruct (send_frame_step X (mkframe true PONG (f_data f)) (m_conn m))
      as [(exts' & e' & _ & U)|(f' & exts' & w' & -> & S & L')].
  - exfalso. apply (no_pong_trouble X (m_conn m) f) in U; auto. now rewrite Hf.
  - eexists. split; [reflexivity|]. cbn [m_conn add_event c_events set_events]. now rewrite after_send_events.
Qed.

(* a ping in the middle of a message *)
Example C15_applies :
  exists m rs, history no_ext ex_server [CReceiveData (bs [1; 129; 0; 0; 0; 0; 97]%N)] m rs /\ rs = [RNone] /\
    c_state (m_conn m) = OPEN /\
    (let '(m', r) := do_call no_ext m (CReceiveData (bs [137; 129; 0; 0; 0; 0; 98]%N)) in
     r = RNone /\ c_writes (m_conn m') = [bs [138; 1; 98]%N]).
Proof. apply by_running. vm_compute. auto 10. Qed.

(* ---- C22 ---- *)

Definition is_send (k : call) : Prop := ~ is_receive k /\ ~ drains k.

Lemma send_raises {E} (X : ext_ops E) m k m' e : is_send k -> do_call X m k = (m', RRaise e) ->
  (is_server (c_side (m_conn m)) = true -> c_state (m_conn m) = OPEN -> c_eof_sent (m_conn m) = false) ->
  (m' = m \/
   exists exts x f, m' = Machine (set_exts (set_expect_cont (m_conn m) x) exts) (m_reader m) (m_parser m) (m_exc m) /\
     unsendable X (set_expect_cont (m_conn m) x) f exts e /\
     (x = c_expect_cont (m_conn m) \/ exists o data fin, data_call k = Some (o, data, fin) /\ f = mkframe fin o data)).
Proof.
  intros (Nr & Nd) D Es. destruct m as [c rd ps ex]. cbn [m_conn m_reader m_parser m_exc] in *.
  assert (Eta : set_expect_cont c (c_expect_cont c) = c) by (destruct c; reflexivity).
  assert (Data : forall o data fin, data_call k = Some (o, data, fin) ->
    on_conn (Machine c rd ps ex) (fun c => send_frame X (mkframe fin o data) (set_expect_cont c (negb fin))) = (m', RRaise e) ->
    exists exts x f, m' = Machine (set_exts (set_expect_cont c x) exts) rd ps ex /\
     unsendable X (set_expect_cont c x) f exts e /\
     (x = c_expect_cont c \/ exists o data fin, data_call k = Some (o, data, fin) /\ f = mkframe fin o data)).
  { intros o data fin Dk Ho. unfold on_conn in Ho. cbn [m_conn m_reader m_parser m_exc] in Ho.
    destruct (send_frame_step X (mkframe fin o data) (set_expect_cont c (negb fin)))
      as [(exts & e1 & Q & U)|(f' & exts & w & Q & _)]; rewrite Q in Ho; try discriminate Ho; injection Ho as <- <-.
    exists exts, (negb fin), (mkframe fin o data). split; [reflexivity|]. split; [exact U|]. right. eauto. }
  assert (Ctrl : forall f, send_frame X f c = (fst (send_frame X f c), Raise e) ->
     m' = Machine (fst (send_frame X f c)) rd ps ex ->
     exists exts x f, m' = Machine (set_exts (set_expect_cont c x) exts) rd ps ex /\
     unsendable X (set_expect_cont c x) f exts e /\
     (x = c_expect_cont c \/ exists o data fin, data_call k = Some (o, data, fin) /\ f = mkframe fin o data)).
  { intros f Hs Hm. destruct (send_frame_step X f c) as [(exts & e1 & Q & U)|(f' & exts & w & Q & _)]; rewrite Q in Hs; [|discriminate].
    injection Hs as ->. exists exts, (c_expect_cont c), f. rewrite Eta. rewrite Q in Hm. cbn [fst] in Hm. auto. }
  destruct k; try (exfalso; apply Nr; exact I); try (exfalso; apply Nd; exact I); cbn [do_call] in D.
  - unfold on_conn, send_continuation in D. cbn [m_conn m_reader m_parser m_exc] in D.
    destruct (negb (c_expect_cont c)); [injection D as <- _; auto|]. right. eapply (Data CONT); [reflexivity|exact D].
  - unfold on_conn, send_text in D. cbn [m_conn m_reader m_parser m_exc] in D.
    destruct (c_expect_cont c) eqn:Ex; [injection D as <- _; auto|]. right. eapply (Data TEXT); [reflexivity|exact D].
  - unfold on_conn, send_binary in D. cbn [m_conn m_reader m_parser m_exc] in D.
    destruct (c_expect_cont c) eqn:Ex; [injection D as <- _; auto|]. right. eapply (Data BINARY); [reflexivity|exact D].
  - unfold on_conn, send_close in D. cbn [m_conn m_reader m_parser m_exc] in D.
    destruct (c_expect_cont c) eqn:Ex; [injection D as <- _; auto|].
    destruct (match code with None => _ | Some _ => _ end) as [dd|e1]; [|injection D as <- _; auto].
    right. unfold mseq at 1 in D.
    destruct (send_frame_step X (mkframe true CLOSE dd) c) as [(exts & e1 & Q & U)|(f' & exts & w & Q & S & _)]; rewrite Q in D.
    + injection D as <- <-. exists exts, false, (mkframe true CLOSE dd). rewrite Eta. auto.
    + exfalso. destruct S as (So & _). unfold start_closing, mseq, mupd, mret, send_eof in D. cbn [c_side set_state] in D.
      rewrite after_send_side in D. destruct (is_server (c_side c)); [|discriminate D].
      cbn [c_eof_sent set_state] in D. rewrite after_send_eof, Es in D; auto. discriminate D.
  - right. unfold on_conn, send_ping in D. cbn [m_conn m_reader m_parser m_exc] in D.
    apply (Ctrl (mkframe true PING data)); destruct (send_frame X (mkframe true PING data) c) as [c1 [u|e1]]; try discriminate D;
    injection D as <- <-; reflexivity.
  - right. unfold on_conn, send_pong in D. cbn [m_conn m_reader m_parser m_exc] in D.
    apply (Ctrl (mkframe true PONG data)); destruct (send_frame X (mkframe true PONG data) c) as [c1 [u|e1]]; try discriminate D;
    injection D as <- <-; reflexivity.
Qed.

(* A send method that raises writes and delivers nothing and doesn't change the state;
   without extensions, methods that send control frames change nothing at all, and methods
   that send data frames change nothing at all in an open connection.  (The hypothesis about
   EOFError excludes what follows the unexpected end of the stream, as in C13.) *)
Theorem C22_partial :
  forall E (X : ext_ops E) c0 ks m rs k m' e,
    fresh OPEN c0 -> history X c0 ks m rs -> ~ In (RRaise EOFError) rs ->
    is_send k -> do_call X m k = (m', RRaise e) ->
    c_writes (m_conn m') = c_writes (m_conn m) /\ c_events (m_conn m') = c_events (m_conn m) /\
    c_state (m_conn m') = c_state (m_conn m) /\ c_draws (m_conn m') = c_draws (m_conn m) /\
    c_eof_sent (m_conn m') = c_eof_sent (m_conn m) /\
    (c_exts c0 = [] ->
     match data_call k with
     | None => True
     | Some (_, data, _) => c_state (m_conn m) = OPEN /\ (lenN data < 2 ^ 64)%N
     end -> m' = m).
Proof.
  intros E X c0 ks m rs k m' e F H Ne Ks D.
  assert (Es : c_state (m_conn m) = OPEN -> c_eof_sent (m_conn m) = false).
  { destruct (use_inv X c0 ks m rs H OPEN (fun a => inv_rcvd_open a /\ inv_eof a /\ inv_eof_last a) F) as (is & W & _ & _ & I).
    - destruct F as (_ & _ & _ & Cr & _ & Es & _). split; [|split].
      + intros _ Hc. change (c_close_rcvd c0 = true) in Hc. congruence.
      + unfold inv_eof. cbn [a_c a_is count_eof]. change (0 = if c_eof_sent c0 then 1 else 0). now rewrite Es.
      + left. split; [intros Hc; change (c_eof_sent c0 = true) in Hc; congruence|]. intros pre post He; destruct pre; discriminate.
    - intros x y _ (I1 & I2 & I3) S. split; [eapply rcvd_open_step; eauto|]. split; [eapply eof_step; eauto|].
      eapply eof_last_step; eauto.
    - destruct I as [[I _]|I]; [|exfalso; apply Ne; eapply dead_was_raised; eassumption].
      cbn [a_c] in I. intros So. destruct (c_eof_sent (m_conn m)) eqn:Q; [exfalso; apply I; assumption|reflexivity]. }
  destruct (send_raises X m k m' e Ks D ltac:(auto)) as [->|(exts & x & f & -> & U & Hx)].
  - repeat (split; [reflexivity|]). auto.
  - repeat (split; [reflexivity|]). intros Nx Hd.
    assert (Nx' : c_exts (m_conn m) = []).
    { destruct (use_steps X c0 ks m rs H OPEN F) as (is' & _ & A). apply steps_noext in A; [exact A|exact Nx]. }
    assert (exts = []) as ->.
    { apply unsendable_exts in U. cbn [c_exts set_expect_cont] in U. rewrite Nx' in U. destruct exts; [reflexivity|discriminate]. }
    assert (x = c_expect_cont (m_conn m)) as ->.
    { destruct Hx as [Hx|(o & data & fin & Dk & ->)]; [exact Hx|]. rewrite Dk in Hd. destruct Hd as [So Ld]. exfalso.
      apply (never_unsendable X (set_expect_cont (m_conn m) x) fin o data [] e) in U; auto.
      eapply data_call_op; exact Dk. }
    destruct m as [c rd ps ex]. cbn [m_conn m_reader m_parser m_exc] in *. f_equal. destruct c. cbn in *. now subst.
Qed.

Example C22_applies : exists m rs, history no_ext ex_server [CSendText (b "a") false] m rs /\
  c_state (m_conn m) = OPEN /\ snd (do_call no_ext m (CSendText (b "b") true)) = RRaise (ProtocolError (s "expected a continuation frame")).
Proof. apply by_running. vm_compute. auto. Qed.

(* It isn't true in general: after a failed send_text(fin=False) in a closing connection,
   the error raised by the next call changes. *)
Theorem C22_refuted :
  exists m rs, history no_ext ex_server [CSendClose None []] m rs /\
    let m' := fst (do_call no_ext m (CSendText (b "a") false)) in
    snd (do_call no_ext m (CSendText (b "a") false)) = RRaise (InvalidState (s "cannot write to a WebSocket in the CLOSING state")) /\
    snd (do_call no_ext m (CSendText (b "b") true)) = RRaise (InvalidState (s "cannot write to a WebSocket in the CLOSING state")) /\
    snd (do_call no_ext m' (CSendText (b "b") true)) = RRaise (ProtocolError (s "expected a continuation frame")).
Proof. apply by_running. vm_compute. auto. Qed.

(* ... and a server which has received the unexpected end of the stream can write a close
   frame in a call that raises. *)
Theorem C22_close_after_eof_refuted :
  exists m rs, history no_ext ex_server [CReceiveEof] m rs /\
    snd (do_call no_ext m (CSendClose None [])) = RRaise AssertionError /\
    c_writes (m_conn (fst (do_call no_ext m (CSendClose None [])))) = c_writes (m_conn m) ++ [bs [136; 0]%N].
Proof. apply by_running. vm_compute. auto. Qed.

(* ---- C23 ---- *)

(* The close code and reason are those of the last close frame received. *)
Theorem C23_partial :
  forall E (X : ext_ops E) c0 ks m rs pre f post st,
    fresh st c0 -> history X c0 ks m rs -> no_receive_raised ks rs ->
    frames_of (all_events rs m) = pre ++ f :: post -> is_close f ->
    (forall g, In g post -> ~ is_close g) ->
    exists code reason, parse_close (f_data f) = Ok (code, reason) /\
      c_close_code (m_conn m) = Some code /\ c_close_reason (m_conn m) = Some reason.
Proof.
  intros E X c0 ks m rs pre f post st F H Nr Ev Hf Np.
  destruct (use_inv X c0 ks m rs H st inv_close_code F) as (is & W & I).
  - intros pre' g post' He. destruct pre'; discriminate.
  - intros x y _. apply close_code_step.
  - apply (I pre f post Ev Hf).
    + intros Hc. apply Exists_exists in Hc as (g & Hg & Hc). exact (Np g Hg Hc).
    + cbn [a_ph]. unfold phase_of. unfold history in H. rewrite start_parse_body in H.
      destruct (still_alive X ks _ _ _ H Nr) as [g Hg]; [cbn; eauto|]. now rewrite Hg.
Qed.

Example C23_applies : exists m rs, history no_ext ex_client ex_calls m rs /\
  c_close_code (m_conn m) = Some 1000%Z /\ c_close_reason (m_conn m) = Some [].
Proof. apply by_running. vm_compute. auto. Qed.

(* When the stream ends without a close frame, the close code stays unset. *)
Theorem C23_unset_refuted :
  exists m rs, history no_ext ex_client [CReceiveEof] m rs /\ c_close_code (m_conn m) = None.
Proof. apply by_running. vm_compute. auto. Qed.

(* ---- C08 ---- *)

Section Deliver.
Context {E : Type} (X : ext_ops E).

(* a connection that received exactly the frames l *)
Record got (max : option Z) (sd : side) (m : machine E) (l : list frame) (cur : list frame) : Prop := {
  g_between : between_frames X m;
  g_exts : c_exts (m_conn m) = [];
  g_max : c_max_size (m_conn m) = max;
  g_side : c_side (m_conn m) = sd;
  g_events : c_events (m_conn m) = map EvFrame l;
  g_cur : c_cur_size (m_conn m) = size_of cur }.

Lemma pong_sent c f : c_state c = OPEN -> c_exts c = [] -> check f = Ok tt -> is_ctrl (f_opcode f) = true ->
  forall o, is_ctrl o = true -> exists w, send_frame X (mkframe true o (f_data f)) c = (after_send c [] w, Ok tt).
Proof.
  intros So Nx Hc Hf o Ho.
  destruct (send_frame_step X (mkframe true o (f_data f)) c)
      as [(exts' & e' & _ & U)|(f' & exts' & w' & -> & S & L')].
  - exfalso. apply (no_pong_trouble X c f) in U; auto.
  - destruct S as (_ & _ & En & _). rewrite Nx in En. cbn [encode_in_order] in En. injection En as <- _. eauto.
Qed.

Lemma after_send_attrs (c : conn E) exts w : c_state (after_send c exts w) = c_state c /\ c_exts (after_send c exts w) = exts /\
  c_max_size (after_send c exts w) = c_max_size c /\ c_cur_size (after_send c exts w) = c_cur_size c /\
  c_close_rcvd (after_send c exts w) = c_close_rcvd c.
Proof. unfold after_send. cbn [c_side set_exts]. destruct (is_client (c_side c)); repeat split. Qed.

Lemma got_frame max sd m l done cur f key w :
  got max sd m l cur -> c_state (m_conn m) = OPEN -> c_close_rcvd (m_conn m) = false -> c_eof_sent (m_conn m) = false ->
  layout (on_wire f key) w -> is_masked (on_wire f key) = is_server sd -> check f = Ok tt -> good_close f ->
  message_sequence l done cur -> well_formed_messages (l ++ [f]) ->
  fits max (message_size cur + length (f_data f)) ->
  (is_close f -> cur = []) ->
  exists m' done' cur', receive_data X m w = (m', Ok tt) /\ got max sd m' (l ++ [f]) cur' /\
    message_sequence (l ++ [f]) done' cur' /\
    (message_size cur' <= message_size cur + length (f_data f)) /\
    (~ is_close f -> c_state (m_conn m') = OPEN /\ c_close_rcvd (m_conn m') = false /\ c_eof_sent (m_conn m') = false).
Proof.
  intros [B Nx Mx Sd Ev Cu] So Cr Es L Km Hc Gc Ms Wf Fi Cc.
  assert (Fm : fits (next_max_size (m_conn m)) (length (f_data f))).
  { unfold next_max_size. rewrite Mx, Cu. destruct max as [n|]; [|exact I]. cbn [fits] in Fi.
    destruct cur; cbn [size_of fits]; lia. }
  destruct (receive_good_frame X m f key w B Nx L) as (r & R); auto. { now rewrite Sd. }
  rewrite R. unfold frame_received.
  destruct (is_data_b f) eqn:Db.
  - (* data *)
    pose proof (next_ok_of l done cur f Ms Db Wf) as N.
    pose proof (message_data _ _ _ f Ms N) as Md.
    assert (Pf : process_frame X f (m_conn m) = (set_cur_size (m_conn m) (size_of (if f_fin f then [] else cur ++ [f])), Ok tt)).
    { unfold process_frame. unfold next_ok in N. rewrite Cr, Cu.
      destruct (f_opcode f) eqn:O; try (unfold is_data_b in Db; rewrite O in Db; discriminate);
      destruct cur as [|f1 cur]; try contradiction; try discriminate N; cbn [size_of]; destruct (f_fin f); try reflexivity;
      try (f_equal; f_equal; symmetry; rewrite size_of_snoc; reflexivity);
      try (f_equal; f_equal; symmetry; rewrite (size_of_snoc [] f); reflexivity). }
    rewrite Pf. exists (Machine (add_event f (set_cur_size (m_conn m) (size_of (if f_fin f then [] else cur ++ [f])))) reader_init (PRun (parse_body X)) None).
    destruct (f_fin f) eqn:Fin.
    + exists (done ++ [cur ++ [f]]), []. split; [reflexivity|]. split; [|split; [exact Md|split]].
      * split; cbn [m_conn add_event set_events set_cur_size c_exts c_max_size c_side c_events c_cur_size]; auto.
        -- repeat split.
        -- rewrite Ev, map_app. reflexivity.
      * unfold message_size. simpl. lia.
      * intros _. cbn. auto.
    + exists done, (cur ++ [f]). split; [reflexivity|]. split; [|split; [exact Md|split]].
      * split; cbn [m_conn add_event set_events set_cur_size c_exts c_max_size c_side c_events c_cur_size]; auto.
        -- repeat split.
        -- rewrite Ev, map_app. reflexivity.
      * rewrite message_size_snoc. lia.
      * intros _. cbn. auto.
  - (* control *)
    pose proof (message_ctrl _ _ _ f Db Ms) as Md.
    assert (Hi : is_ctrl (f_opcode f) = true) by (unfold is_data_b in Db; destruct (f_opcode f); try discriminate; reflexivity).
    unfold process_frame. destruct (f_opcode f) eqn:O; try discriminate Hi.
    + (* close *)
      specialize (Cc O). subst cur. destruct (Gc O) as (code & reason & Pc). rewrite Pc.
      cbn [c_cur_size set_close set_close_rcvd]. rewrite Cu. cbn [size_of c_state set_close set_close_rcvd]. rewrite So. cbn [is_open].
      set (c2 := set_close (set_close_rcvd (m_conn m) true) code reason).
      destruct (pong_sent c2 f So Nx Hc) with (o := CLOSE) as (w' & Sf); [now rewrite O|reflexivity|].
      unfold mseq at 1. rewrite Sf. unfold start_closing, mseq, mupd, mret, send_eof.
      cbn [c_side set_state c_eof_sent]. rewrite after_send_side, after_send_eof.
      change (c_side c2) with (c_side (m_conn m)). change (c_eof_sent c2) with (c_eof_sent (m_conn m)). rewrite Es, Sd.
      destruct (after_send_attrs c2 [] w') as (A1 & A2 & A3 & A4 & A5).
      destruct (is_server sd); (eexists _, done, []; split; [reflexivity|]; split; [|split; [exact Md|split; [unfold message_size; simpl; lia|unfold is_close; contradiction]]]);
      (split; cbn [m_conn add_event set_events set_state set_writes set_eof_sent c_exts c_max_size c_side c_events c_cur_size];
       [repeat split|exact A2|rewrite A3; exact Mx|rewrite after_send_side; exact Sd|rewrite after_send_events, map_app; change (c_events c2) with (c_events (m_conn m)); now rewrite Ev|rewrite A4; exact Cu]).
    + (* ping *)
      rewrite Cr. destruct (pong_sent (m_conn m) f So Nx Hc) with (o := PONG) as (w' & ->); [now rewrite O|reflexivity|].
      destruct (after_send_attrs (m_conn m) [] w') as (A1 & A2 & A3 & A4 & A5).
      eexists _, done, cur. split; [reflexivity|]. split; [|split; [exact Md|split; [lia|]]].
      * split; cbn [m_conn add_event set_events c_exts c_max_size c_side c_events c_cur_size];
        [repeat split|exact A2|rewrite A3; exact Mx|rewrite after_send_side; exact Sd|rewrite after_send_events, map_app, Ev; reflexivity|rewrite A4; exact Cu].
      * intros _. cbn [m_conn add_event set_events c_state c_close_rcvd c_eof_sent]. rewrite A1, A5, after_send_eof. auto.
    + (* pong *)
      eexists _, done, cur. split; [reflexivity|]. split; [|split; [exact Md|split; [lia|]]].
      * split; cbn [m_conn add_event set_events c_exts c_max_size c_side c_events c_cur_size]; auto; [repeat split|].
        rewrite Ev, map_app. reflexivity.
      * intros _. cbn. auto.
Qed.

Lemma receive_nothing m : between_frames X m -> receive_data X m [] = (m, Ok tt).
Proof.
  intros (P & R & Ex). destruct m as [c rd ps ex]. cbn [m_parser m_reader m_exc] in *. subst.
  reflexivity.
Qed.

Definition non_empty (w : bytes) : bool := match w with [] => false | _ => true end.

Lemma concat_non_empty ws : concat (filter non_empty ws) = concat ws.
Proof. induction ws as [|[|x w] ws IH]; cbn [filter non_empty concat app]; [reflexivity|exact IH|]. now rewrite IH. Qed.

Lemma layout_cons wf w : layout wf w -> non_empty w = true.
Proof. intros (n & B1 & B2 & key & tail & -> & _). reflexivity. Qed.

Lemma deliver max sd is : forall ws m l done cur,
  written ws is -> got max sd m l cur -> message_sequence l done cur ->
  sent_frames is = [] \/ c_state (m_conn m) = OPEN /\ c_close_rcvd (m_conn m) = false /\ c_eof_sent (m_conn m) = false ->
  (forall f key, In (Sent f key) is -> check f = Ok tt /\ good_close f /\ is_masked (on_wire f key) = is_server sd) ->
  well_formed_messages (l ++ sent_frames is) ->
  (forall pre f key post, is = pre ++ Sent f key :: post -> is_close f ->
     sent_frames post = [] /\ exists done, message_sequence (l ++ sent_frames pre) done []) ->
  (forall pre f key post d c, is = pre ++ Sent f key :: post -> message_sequence (l ++ sent_frames pre) d c ->
     fits max (message_size c + length (f_data f))) ->
  exists m' rs', do_calls X m (map CReceiveData (filter non_empty ws)) = (m', rs') /\
    Forall (fun r => r = RNone) rs' /\ c_events (m_conn m') = map EvFrame (l ++ sent_frames is).
Proof.
  induction is as [|i is IH]; intros ws m l done cur W G Ms Op Hf Wf Hc Fi.
  - apply Forall2_nil_r in W || (inversion W; subst ws). exists m, []. split; [reflexivity|]. split; [constructor|].
    cbn [sent_frames flat_map]. rewrite app_nil_r. apply (g_events _ _ _ _ _ G).
  - inversion W as [|w ? ws' ? Wi Wr]; subst. destruct i as [|f key].
    + cbn [item_bytes] in Wi. subst w. cbn [filter non_empty]. apply (IH ws' m l done cur); auto.
      * intros f key Hin. apply Hf. now right.
      * intros pre f key post He. apply (Hc (Eof :: pre) f key post). cbn [app]. now rewrite He.
      * intros pre f key post d c He. apply (Fi (Eof :: pre) f key post d c). cbn [app]. now rewrite He.
    + destruct Op as [Op|(So & Cr & Es)]; [discriminate Op|]. cbn [item_bytes] in Wi. apply minimal_is_layout in Wi.
      cbn [filter]. rewrite (layout_cons _ _ Wi). cbn [map do_calls do_call].
      change (sent_frames (Sent f key :: is)) with (f :: sent_frames is) in *.
      destruct (Hf f key) as (C1 & C2 & C3); [now left|].
      destruct (got_frame max sd m l done cur f key w) as (m1 & done1 & cur1 & R1 & G1 & Ms1 & Sz & Op1); auto.
      * apply (well_formed_prefix _ (sent_frames is)). now rewrite <- app_assoc.
      * apply (Fi [] f key is done cur eq_refl). cbn [sent_frames flat_map]. now rewrite app_nil_r.
      * intros Hcl. destruct (Hc [] f key is eq_refl Hcl) as (_ & d & Md). cbn [sent_frames flat_map] in Md.
        rewrite app_nil_r in Md. eapply message_sequence_unique in Ms as [_ <-]; [reflexivity|exact Md].
      * rewrite R1. cbn [ret_of].
        destruct (IH ws' m1 (l ++ [f]) done1 cur1) as (m' & rs' & D & Rs & Ev); auto.
        -- destruct (f_opcode f) eqn:O; try (right; apply Op1; unfold is_close; congruence).
           left. apply (Hc [] f key is eq_refl O).
        -- intros f' key' Hin. apply Hf. now right.
        -- rewrite <- app_assoc. exact Wf.
        -- intros pre f' key' post He Hcl. destruct (Hc (Sent f key :: pre) f' key' post) as (H1 & d & H2); [cbn [app]; now rewrite He|exact Hcl|].
           split; [exact H1|]. exists d. rewrite <- app_assoc. exact H2.
        -- intros pre f' key' post d c He Hm. apply (Fi (Sent f key :: pre) f' key' post d c); [cbn [app]; now rewrite He|].
           rewrite <- app_assoc in Hm. exact Hm.
        -- rewrite D. exists m', (RNone :: rs'). split; [reflexivity|]. split; [now constructor|]. rewrite Ev, <- app_assoc. reflexivity.
Qed.
End Deliver.

Lemma first_error_none rs : Forall (fun r => r = RNone) rs -> first_error rs = None.
Proof. induction 1 as [|r rs -> _ IH]; [reflexivity|exact IH]. Qed.
Lemma no_first_error {E} (X : ext_ops E) ds : forall m, first_error (snd (do_calls X m (map CReceiveData ds))) = None ->
  Forall (fun r => r = RNone) (snd (do_calls X m (map CReceiveData ds))).
Proof.
  induction ds as [|d ds IH]; intros m; cbn [map do_calls do_call]; [constructor|].
  destruct (receive_data X m d) as [m1 [u|e]]; cbn [ret_of].
  - specialize (IH m1). destruct (do_calls X m1 (map CReceiveData ds)) as [m2 rs2]. cbn [snd first_error fold_right] in *.
    intros H. constructor; auto.
  - destruct (do_calls X m1 (map CReceiveData ds)) as [m2 rs2]. discriminate.
Qed.
Lemma delivered_none rs : Forall (fun r => r = RNone) rs -> flat_map delivered_by rs = [].
Proof. induction 1 as [|r rs -> _ IH]; [reflexivity|exact IH]. Qed.

(* Everything that a connection sends is delivered, exactly and in order, by a connection of
   the other side which receives the same bytes, cut in any way.  The hypothesis on close
   frames is needed: see C08_close_within_message_refuted. *)
Theorem C08_delivery_partial :
  forall E (X : ext_ops E) E' (X' : ext_ops E') cA ks mA rsA is cB ds mB rsB,
    fresh OPEN cA -> c_exts cA = [] -> keeps_framing X ->
    (forall k op data fin, In k ks -> data_call k = Some (op, data, fin) -> (lenN data < 2 ^ 64)%N) ->
    history X cA ks mA rsA -> written (all_writes rsA mA) is ->
    (forall pre f key post, is = pre ++ Sent f key :: post -> is_close f ->
       exists done, message_sequence (sent_frames pre) done []) ->
    fresh OPEN cB -> c_exts cB = [] -> c_side cB <> c_side cA ->
    (* no frame makes its message exceed the limit *)
    (forall pre f key post done current, is = pre ++ Sent f key :: post -> message_sequence (sent_frames pre) done current ->
       fits (c_max_size cB) (message_size current + length (f_data f))) ->
    concat ds = concat (all_writes rsA mA) ->
    history X' cB (map CReceiveData ds) mB rsB ->
    all_events rsB mB = map EvFrame (sent_frames is) /\ Forall (fun r => r = RNone) rsB.
Proof.
  intros E X E' X' cA ks mA rsA is cB ds mB rsB FA NA Kf Sm HA W Hc FB NB Sd Fi Cat HB.
  destruct (C11_sent_messages E X cA ks mA rsA OPEN FA Kf (or_introl NA) Sm HA) as (is1 & W1 & Wf).
  rewrite (written_unique _ _ _ W1 W) in Wf. clear is1 W1.
  destruct (C12_close_frame_once_and_last E X cA ks mA rsA OPEN FA Kf HA) as (is1 & W1 & Cl).
  rewrite (written_unique _ _ _ W1 W) in Cl. clear is1 W1.
  destruct (C21_masking E X cA ks mA rsA OPEN FA HA) as (is1 & W1 & Mk).
  rewrite (written_unique _ _ _ W1 W) in Mk. clear is1 W1.
  destruct (use_inv X cA ks mA rsA HA OPEN inv_sent_ok FA) as (is1 & W1 & Ok1).
  { intros f k []. }
  { intros x y A. apply sent_ok_step. apply steps_noext in A; [exact A|exact NA]. }
  rewrite (written_unique _ _ _ W1 W) in Ok1. clear is1 W1. cbn [a_is] in Ok1.
  assert (Mk' : forall f key, In (Sent f key) is -> is_masked (on_wire f key) = is_server (c_side cB)).
  { intros f key Hin. destruct (c_side cA) eqn:SA.
    - (* the side that masks or not *)
      assert (Hk : match c_side cA with CLIENT => key <> None | SERVER => key = None end).
      { rewrite SA. try (exact (Mk f key Hin)).
        all: try (destruct Mk as [_ Mk]; apply In_nth_error in Hin as Hin'; 
             assert (Hf : In (Sent f key) (filter (fun i => match i with Sent _ _ => true | Eof => false end) is)) by (apply filter_In; auto);
             apply In_nth_error in Hf as (n & Hn); rewrite (Mk n f key Hn); discriminate). }
      rewrite SA in Hk. destruct (c_side cB); try congruence; destruct key as [[[[? ?] ?] ?]|]; try congruence; reflexivity.
    - assert (Hk : match c_side cA with CLIENT => key <> None | SERVER => key = None end).
      { rewrite SA. try (exact (Mk f key Hin)).
        all: try (destruct Mk as [_ Mk]; apply In_nth_error in Hin as Hin'; 
             assert (Hf : In (Sent f key) (filter (fun i => match i with Sent _ _ => true | Eof => false end) is)) by (apply filter_In; auto);
             apply In_nth_error in Hf as (n & Hn); rewrite (Mk n f key Hn); discriminate). }
      rewrite SA in Hk. destruct (c_side cB); try congruence; destruct key as [[[[? ?] ?] ?]|]; try congruence; reflexivity. }
  set (m0 := start X' (parse_body X') cB).
  assert (B0 : between_frames X' m0) by (unfold m0; rewrite start_parse_body; repeat split).
  assert (C0 : m_conn m0 = cB) by (unfold m0; rewrite start_parse_body; reflexivity).
  destruct FB as (So & Cu & _ & Cr & _ & Es & Ev & _ & _).
  destruct (deliver X' (c_max_size cB) (c_side cB) is (all_writes rsA mA) m0 [] [] []) as (m' & rs' & D & Rs & Ev').
  - exact W.
  - split; rewrite ?C0; auto. 
  - apply message_sequence_nil.
  - right. rewrite C0. auto.
  - intros f key Hin. destruct (Ok1 f key Hin) as (O1 & _ & O2). auto.
  - exact Wf.
  - intros pre f key post He Hcl. split; [|apply (Hc pre f key post He Hcl)].
    destruct (Cl pre f key post He Hcl) as [Cp _]. clear -Cp. unfold only_eof in Cp. induction post as [|i post IH]; [reflexivity|].
    rewrite (Cp i) by now left. apply IH. intros j Hj. apply Cp. now right.
  - exact Fi.
  - unfold history in HB. fold m0 in HB.
    destruct (C07_chunking_irrelevant E' X' cB [] m0 [] ([] :: ds) ([] :: filter non_empty (all_writes rsA mA))) as [Q1 Q2];
      [reflexivity|discriminate|discriminate|cbn [concat app]; now rewrite concat_non_empty|].
    cbn [map do_calls do_call] in Q1, Q2. rewrite (receive_nothing X' m0 B0) in Q1, Q2. cbn [ret_of] in Q1, Q2.
    rewrite HB, D in Q1, Q2. cbn [fst snd first_error fold_right] in Q1, Q2. subst m'.
    fold (first_error rsB) in Q2. fold (first_error rs') in Q2. rewrite (first_error_none rs' Rs) in Q2.
    pose proof (no_first_error X' ds m0) as N. rewrite HB in N. specialize (N Q2). cbn [snd] in N.
    split; [|exact N]. unfold all_events. rewrite (delivered_none rsB N), Ev'. reflexivity.
Qed.

(* a conversation that meets the hypotheses *)
Example C08_applies : exists m rs, history no_ext ex_client
    [CSendText (b "a") false; CSendPing (b "p"); CSendContinuation (b "b") true; CSendClose (Some 1000%Z) (s "bye")] m rs /\
  all_writes rs m <> [] /\
  exists mB rsB, history no_ext ex_server (map CReceiveData (all_writes rs m)) mB rsB /\
    all_events rsB mB = [EvFrame (mkframe false TEXT (b "a")); EvFrame (mkframe true PING (b "p"));
      EvFrame (mkframe true CONT (b "b")); EvFrame (mkframe true CLOSE (bs [3; 232]%N ++ b "bye"))].
Proof.
  apply by_running. unfold history. split; [vm_compute; discriminate|].
  eexists _, _. split; [apply surjective_pairing|]. vm_compute. reflexivity.
Qed.

(* When a connection receives a close frame while it is sending a fragmented message, it
   sends its close frame within the message.  Then the peer fails the connection. *)
Theorem C08_close_within_message_refuted :
  exists m rs, history no_ext ex_client [CSendText (b "a") false; CReceiveData (bs [136; 2; 3; 232]%N)] m rs /\
  Forall (fun r => r = RNone) rs /\ length (all_writes rs m) = 2 /\
  exists mB rsB, history no_ext ex_server (map CReceiveData (all_writes rs m)) mB rsB /\
    rsB = [RNone; RRaise (ProtocolError (s "incomplete fragmented message"))] /\
    all_events rsB mB = [EvFrame (mkframe false TEXT (b "a"))].
Proof.
  apply by_running. unfold history. split; [vm_compute; repeat constructor|]. split; [vm_compute; reflexivity|].
  eexists _, _. split; [apply surjective_pairing|]. split; vm_compute; reflexivity.
Qed.

Print Assumptions C17_failing_the_connection.
Print Assumptions C09_oversize_refused.
Print Assumptions C21_wrong_masking_refused.
Print Assumptions C16_close_received.
Print Assumptions C15_ping_while_closing_refuted.
Print Assumptions C15_partial.
Print Assumptions C22_partial.
Print Assumptions C22_refuted.
Print Assumptions C22_close_after_eof_refuted.
Print Assumptions C23_partial.
Print Assumptions C23_unset_refuted.
Print Assumptions C08_delivery_partial.
Print Assumptions C08_close_within_message_refuted.
