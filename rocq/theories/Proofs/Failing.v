(* Failing the connection always succeeds, without extensions: the reason of the close frame
   is short enough. *)
From Verif Require Import Base.Prelude Base.PreludeFacts Base.Utf8 Base.Utf8Facts Base.DecimalFacts
  Model.Utils Model.Streams Model.Frames
  Model.Http11 Model.Connection Spec.Rfc6455 Spec.FrameSpec Spec.Messages Spec.History
  Proofs.StreamsFacts Proofs.FramesFacts Proofs.ParserFacts Proofs.AtomicFacts Proofs.ConnectionFacts
  Proofs.Steps Proofs.MessagesFacts Proofs.Invariants Proofs.SendInvariants Proofs.MoreInvariants.

(* a close frame can be sent for this exception *)
Definition closable (e : exn) : Prop :=
  e = EOFError \/
  exists data, serialize_close (fst (close_code_for e)) (snd (close_code_for e)) = Ok data /\
    (lenN data <= 125)%N.

Lemma closable_ascii e code reason : close_code_for e = (code, reason) ->
  check_close code = Ok tt -> Forall (fun c => c < 128)%N reason -> length reason <= 123 -> closable e.
Proof.
  intros He Hc Hr L. right. rewrite He. cbn [fst snd]. unfold serialize_close. rewrite Hc. cbn [rbind].
  rewrite (utf8_encode_ascii reason Hr). cbn [rbind]. eexists. split; [reflexivity|].
  unfold lenN. rewrite app_length, map_length.
  assert (length (be_bytes 2 (Z.to_N code)) = 2) by reflexivity. lia.
Qed.

Ltac closable_msg := eapply closable_ascii; [reflexivity|reflexivity| |];
  [repeat constructor|vm_compute; lia].

Lemma digits_ascii n : Forall (fun c => c < 128)%N (str_of_N n).
Proof. eapply Forall_impl; [|apply str_of_N_digits]. cbn beta. intros; lia. Qed.

Lemma ascii_s_app (x y : str) : Forall (fun c => c < 128)%N x -> Forall (fun c => c < 128)%N y ->
  Forall (fun c => c < 128)%N (x ++ y).
Proof. intros. apply Forall_app. auto. Qed.

Lemma closable_too_big n m : (0 <= m)%Z -> (m < Z.of_N n)%Z -> (n < 2 ^ 64)%N ->
  closable (PayloadTooBig (too_big_msg n m)).
Proof.
  intros Hm Hn Hb. assert (Es : str_of_Z m = str_of_N (Z.to_N m)) by (destruct m; [reflexivity|reflexivity|lia]).
  assert (L1 : length (str_of_N n) <= 20) by (apply str_of_N_length; [lia|]; change (10 ^ N.of_nat 20)%N with 100000000000000000000%N; lia).
  assert (L2 : length (str_of_N (Z.to_N m)) <= 20) by (apply str_of_N_length; [lia|]; change (10 ^ N.of_nat 20)%N with 100000000000000000000%N; lia).
  eapply closable_ascii; [reflexivity|reflexivity| |].
  - unfold too_big_msg. rewrite Es. repeat apply ascii_s_app; try apply digits_ascii; repeat constructor.
  - unfold too_big_msg. rewrite Es, !app_length. 
    change (length (s "over size limit (")) with 17. change (length (s " > ")) with 3. change (length (s " bytes)")) with 7. lia.
Qed.

Lemma scan_pos : forall n x, length x <= n -> (u_pos (utf8_scan x) <= lenN x)%N.
Proof.
  intros n x Hx. destruct (utf8_scan_sound n x Hx) as (e & rest & -> & _ & -> & _).
  unfold lenN. rewrite app_length. lia.
Qed.

Lemma closable_parse_close f e : check f = Ok tt -> f_opcode f = CLOSE -> parse_close (f_data f) = Raise e -> closable e.
Proof.
  intros Hc Ho. unfold parse_close.
  assert (Ld : (lenN (f_data f) <= 125)%N).
  { unfold check in Hc. destruct (f_rsv1 f || f_rsv2 f || f_rsv3 f); [discriminate|]. rewrite Ho in Hc. cbn [is_ctrl] in Hc.
    destruct (N.ltb_spec 125 (lenN (f_data f))); [discriminate|lia]. }
  destruct (N.leb_spec 2 (lenN (f_data f))) as [L|L].
  - destruct (check_close_cases (Z.of_N (be_N (firstn 2 (f_data f))))) as [C|[C _]]; rewrite C; cbn [rbind].
    2: { intros [= <-]. closable_msg. }
    unfold utf8_decode. set (d := skipn 2 (f_data f)).
    pose proof (scan_pos (length d) d (le_n _)) as P.
    assert (Pb : (u_pos (utf8_scan d) <= 125)%N).
    { unfold lenN in *. subst d. rewrite skipn_length in P. lia. }
    assert (G : forall why, Forall (fun c => c < 128)%N why -> length why <= 60 ->
       closable (UnicodeDecodeError why (u_pos (utf8_scan d)))).
    { intros why Hw Lw. eapply closable_ascii; [reflexivity|reflexivity| |].
      - apply ascii_s_app; [exact Hw|]. apply ascii_s_app; [repeat constructor|apply digits_ascii].
      - rewrite !app_length. change (length (s " at position ")) with 13.
        assert (length (str_of_N (u_pos (utf8_scan d))) <= 3) by (apply str_of_N_length; [lia|]; change (10 ^ N.of_nat 3)%N with 1000%N; lia). lia. }
    destruct (utf8_scan_sound (length d) d (le_n _)) as (en & rest & _ & _ & _ & Hend).
    pose proof (utf8_scan_reasons (length d) d (le_n _)) as Hr.
    destruct (u_end (utf8_scan d)) as [|tr|why] eqn:Ue; cbn [rbind]; [discriminate| |]; intros [= <-].
    + apply G; [repeat constructor|vm_compute; lia].
    + apply G; destruct Hr as [-> | ->]; solve [repeat constructor | vm_compute; lia].
  - destruct (N.eqb_spec (lenN (f_data f)) 0); [discriminate|]. intros [= <-]. closable_msg.
Qed.

Section Failing.
Context {E : Type} (X : ext_ops E).
Implicit Type c : conn E.

Definition inv_failing (a : abs E) : Prop :=
  forall e, a_ph a = Failing e -> c_state (a_c a) = OPEN -> closable e /\ c_eof_sent (a_c a) = false.

(* the invariants of a connection without extensions, open at the start *)
Record inv_all (a : abs E) : Prop := {
  ia_exts : c_exts (a_c a) = [];
  ia_max : forall n, c_max_size (a_c a) = Some n -> (0 <= n)%Z;
  ia_messages : inv_messages X a;
  ia_eof : inv_eof a;
  ia_rcvd_open : inv_rcvd_open a;
  ia_eof_last : inv_eof_last a;
  ia_close_sent : inv_close_sent a;
  ia_open : inv_open a;
  ia_close_rcvd : inv_close_rcvd a;
  ia_close_code : inv_close_code a;
  ia_sent_ok : inv_sent_ok a;
  ia_failing : inv_failing a }.

Lemma all_start c0 : fresh OPEN c0 -> c_exts c0 = [] ->
  (forall n, c_max_size c0 = Some n -> (0 <= n)%Z) -> inv_all (Abs (core c0) [] [] Alive).
Proof.
  intros (Hs & Cs & Ex & Cr & Cc & Es & He & Hw & Dr) Nx Mx. split; try assumption.
  - exists [], []. split; [apply message_sequence_nil|]. split; [exact Cs|].
    intros _ m0 _. split; [constructor|congruence].
  - unfold inv_eof. cbn [a_c a_is count_eof]. change (0 = if c_eof_sent c0 then 1 else 0). now rewrite Es.
  - intros _ Hc. change (c_close_rcvd c0 = true) in Hc. congruence.
  - left. split; [intros Hc; change (c_eof_sent c0 = true) in Hc; congruence|]. intros pre post H; destruct pre; discriminate.
  - split; [intros I; inversion I|]. intros pre f k post H. destruct pre; discriminate.
  - left. exact Hs.
  - split; [intros I; inversion I|].
    split; [intros _ Hc; change (c_close_rcvd c0 = true) in Hc; congruence|]. intros pre f post H; destruct pre; discriminate.
  - intros pre f post H; destruct pre; discriminate.
  - intros f k [].
  - intros e [=].
Qed.

Lemma next_max_nonneg a : (forall n, c_max_size (a_c a) = Some n -> (0 <= n)%Z) -> c_exts (a_c a) = [] ->
  inv_messages X a -> forall m, next_max_size (a_c a) = Some m -> (0 <= m)%Z.
Proof.
  intros Mx Nx (done & cur & M & C & L) m. unfold next_max_size. destruct (c_max_size (a_c a)) as [n|]; [|discriminate].
  specialize (Mx n eq_refl). destruct (L (or_introl Nx) n eq_refl) as (_ & Lc). rewrite C.
  destruct cur as [|f cur]; cbn [size_of]; intros [= <-]; [exact Mx|]. specialize (Lc ltac:(discriminate)). lia.
Qed.

Lemma no_pong_trouble c f exts e : c_exts c = [] -> check f = Ok tt -> is_ctrl (f_opcode f) = true ->
  forall o, is_ctrl o = true -> unsendable X c (mkframe true o (f_data f)) exts e -> c_state c <> OPEN.
Proof.
  intros Nx Hc Hi o Ho.
  assert (Ld : (lenN (f_data f) <= 125)%N).
  { unfold check in Hc. destruct (f_rsv1 f || f_rsv2 f || f_rsv3 f); [discriminate|]. rewrite Hi in Hc.
    destruct (N.ltb_spec 125 (lenN (f_data f))); [discriminate|lia]. }
  assert (Ck : check (mkframe true o (f_data f)) = Ok tt).
  { unfold check, mkframe. cbn. rewrite Ho. destruct (N.ltb_spec 125 (lenN (f_data f))); [lia|reflexivity]. }
  intros [(H & _)|[(_ & _ & C)|[(_ & _ & D)|(_ & _ & _ & f2 & D & L2)]]].
  - exact H.
  - congruence.
  - rewrite Nx in D. discriminate.
  - rewrite Nx in D. cbn [encode_in_order] in D. injection D as _ <-. cbn in L2. lia.
Qed.

Lemma received_noext c f exts : c_exts c = [] -> received X c f exts -> exts = [].
Proof. intros Nx H. apply received_exts in H. rewrite Nx in H. destruct exts; [reflexivity|discriminate]. Qed.

Lemma failing_step K x y : inv_all x -> astep X K x y -> inv_failing y.
Proof.
  intros I S. unfold inv_failing.
  destruct I as [Nx Mx Im _ _ Il _ _ _ _ _ If].
  assert (Eo : a_ph x = Alive -> c_state (a_c x) = OPEN -> c_eof_sent (a_c x) = false).
  { intros Pa So. destruct Il as [[I1 _]|I1]; [|congruence]. destruct (c_eof_sent (a_c x)); [exfalso; now apply I1|reflexivity]. }
  pose proof (next_max_nonneg x Mx Nx Im) as Nm.
  destruct S; fields; intros e0 He Ho;
  try (match goal with H : settled _ |- _ => rewrite He in H; contradiction end);
  try discriminate He; injection He as <-.
  - split; [left; reflexivity|auto].
  - split; [|auto].
    match goal with H : unreadable _ _ _ _ |- _ => destruct H as [[W _]|(f0 & _ & [D|(f & D & C)])] end.
    + destruct W as [->|[->|[->|(n & mm & Hm & H1 & H2 & ->)]]].
      * left; reflexivity.
      * closable_msg.
      * closable_msg.
      * apply closable_too_big; auto.
    + rewrite Nx in D. discriminate.
    + unfold check in C. destruct (f_rsv1 f || f_rsv2 f || f_rsv3 f); [injection C as <-; closable_msg|].
      destruct (is_ctrl (f_opcode f)); [|discriminate].
      destruct (125 <? lenN (f_data f))%N; [injection C as <-; closable_msg|].
      destruct (negb (f_fin f)); [injection C as <-; closable_msg|discriminate].
  - split; [|auto]. match goal with H : In msg _ |- _ => simpl in H; destruct H as [<-|[<-|[<-|[]]]] end; closable_msg.
  - exfalso. match goal with H : received _ _ _ _ |- _ => pose proof (received_noext _ _ _ Nx H) as ->; destruct H as (_ & _ & _ & Hc) end.
    match goal with H : unsendable _ _ _ _ _ |- _ => apply (no_pong_trouble (set_exts c []) f) in H; auto end.
    match goal with H : f_opcode f = _ |- _ => rewrite H; reflexivity end.
  - split; [|auto]. match goal with H : received _ _ _ _ |- _ => destruct H as (_ & _ & _ & Hc) end.
    eapply closable_parse_close; eassumption.
  - split; [|auto]. closable_msg.
  - exfalso. match goal with H : received _ _ _ _ |- _ => pose proof (received_noext _ _ _ Nx H) as ->; destruct H as (_ & _ & _ & Hc) end.
    match goal with H : unsendable _ _ _ _ _ |- _ => apply (no_pong_trouble _ f) in H; auto end.
    match goal with H : f_opcode f = _ |- _ => rewrite H; reflexivity end.
  - discriminate Ho.
Qed.

Lemma all_step K x y : keeps_framing X -> inv_all x -> astep X K x y -> inv_all y.
Proof.
  intros Kf I S. pose proof (failing_step K x y I S) as Fy. destruct I.
  pose proof (steps_const X K x y (as_step X K x x y (as_refl X K x) S)) as (Hs & Hm & _).
  assert (Nx : c_exts (a_c y) = []).
  { eapply (steps_noext X K x y); [assumption|]. eapply as_step; [apply as_refl|exact S]. }
  split; try assumption.
  - rewrite Hm. assumption.
  - eapply (messages_step X K x y); eassumption.
  - eapply (eof_step X K x y); eassumption.
  - eapply (rcvd_open_step X K x y); eassumption.
  - eapply (eof_last_step X K x y); eassumption.
  - eapply (close_sent_step X K x y); eassumption.
  - eapply (open_step X K x y); eassumption.
  - eapply (close_rcvd_step X K x y); eassumption.
  - eapply (close_code_step X K x y); eassumption.
  - eapply (sent_ok_step X K x y); eassumption.
Qed.

Lemma all_steps K x y : keeps_framing X -> inv_all x -> asteps X K x y -> inv_all y.
Proof. intros Kf I. apply (asteps_inv X K inv_all x I). intros a a'. apply all_step. exact Kf. Qed.

(* when only receive calls are made, the last step to a dead parser fails the connection *)
Definition receives (K : call -> Prop) : Prop :=
  forall k, K k -> data_call k = None /\ ctrl_call k = None /\ forall code reason, k <> CSendClose code reason.

Lemma fail_last K a y d : receives K -> asteps X K a y -> a_ph a = Alive -> a_ph y = Dead d ->
  exists z e, asteps X K a z /\ a_ph z = Failing e /\ astep X K z y.
Proof.
  intros R A Pa Py. destruct A as [|x y A S]; [congruence|].
  destruct S; fields;
  try (match goal with H : K _ |- _ => destruct (R _ H) as (R1 & R2 & R3) end; try congruence);
  try discriminate Py; try (eexists _, e; split; [exact A|]; split; [reflexivity|]; econstructor; eassumption).
Qed.

(* an open connection that only receives replies to a close frame it delivers *)
Lemma receive_echo K a y : keeps_framing X -> receives K -> inv_all a -> asteps X K a y ->
  c_state (a_c a) = OPEN -> (forall d, a_ph y <> Dead d) ->
  c_state (a_c y) = OPEN \/ has_close (frames_of (a_ev y)).
Proof.
  intros Kf R I A So. induction A as [|x y A IH S]; [auto|]. intros Nd.
  pose proof (all_steps K a x Kf I A) as Ix.
  assert (Eo : a_ph x = Alive -> c_state (a_c x) = OPEN -> c_eof_sent (a_c x) = false).
  { intros Pa Sx. destruct (ia_eof_last x Ix) as [[I1 _]|I1]; [|congruence]. destruct (c_eof_sent (a_c x)); [exfalso; now apply I1|reflexivity]. }
  assert (Hc : forall l f, has_close (frames_of l) -> has_close (frames_of (l ++ [EvFrame f]))).
  { intros l f H. rewrite frames_of_snoc. apply has_close_snoc. auto. }
  destruct S; fields; try (specialize (IH ltac:(discriminate)));
  try (destruct IH as [IH|IH]; solve [auto]);
  try (exfalso; match goal with H : K _ |- _ => destruct (R _ H) as (R1 & R2 & R3) end; try congruence; eapply R3; reflexivity);
  try (exfalso; eapply Nd; reflexivity).
  - right. rewrite frames_of_snoc. apply has_close_snoc. auto.
  - match goal with H : sendable _ _ _ _ _ |- _ => destruct H as (St & _) end. fields. specialize (Eo eq_refl St). congruence.
Qed.
End Failing.
