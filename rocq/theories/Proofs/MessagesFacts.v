(* Facts about sequences of frames and items: Spec/Messages.v, Spec/History.v. *)
From Verif Require Import Base.Prelude Base.PreludeFacts Model.Utils Model.Streams Model.Frames
  Model.Connection Spec.Rfc6455 Spec.FrameSpec Spec.Messages Spec.History
  Proofs.StreamsFacts Proofs.FramesFacts.

Lemma frames_of_app l r : frames_of (l ++ r) = frames_of l ++ frames_of r.
Proof. apply flat_map_app. Qed.
Lemma frames_of_snoc l f : frames_of (l ++ [EvFrame f]) = frames_of l ++ [f].
Proof. rewrite frames_of_app. reflexivity. Qed.
Lemma sent_frames_app l r : sent_frames (l ++ r) = sent_frames l ++ sent_frames r.
Proof. apply flat_map_app. Qed.
Lemma sent_frames_snoc l f k : sent_frames (l ++ [Sent f k]) = sent_frames l ++ [f].
Proof. rewrite sent_frames_app. reflexivity. Qed.
Lemma sent_frames_eof l : sent_frames (l ++ [Eof]) = sent_frames l.
Proof. rewrite sent_frames_app. apply app_nil_r. Qed.
Lemma data_frames_app l r : data_frames (l ++ r) = data_frames l ++ data_frames r.
Proof. apply filter_app. Qed.

Lemma is_data_iff f : is_data_b f = true <-> is_data f.
Proof. unfold is_data_b, is_data. destruct (f_opcode f); intuition discriminate. Qed.
Lemma close_not_data f : is_close f -> is_data_b f = false.
Proof. unfold is_close, is_data_b. now intros ->. Qed.
Lemma ctrl_not_data f : is_ctrl (f_opcode f) = true -> is_data_b f = false.
Proof. unfold is_data_b. destruct (f_opcode f); [discriminate..| | |]; reflexivity. Qed.

Lemma message_sequence_nil : message_sequence [] [] [].
Proof. repeat split; auto. Qed.

Lemma message_ctrl l done cur f : is_data_b f = false -> message_sequence l done cur ->
  message_sequence (l ++ [f]) done cur.
Proof.
  intros Hf (D & C & U). split; [|auto]. rewrite data_frames_app, D. unfold data_frames. simpl.
  rewrite Hf. apply app_nil_r.
Qed.

(* the frame f may come next *)
Definition next_ok (cur : list frame) (f : frame) : Prop :=
  match f_opcode f with
  | TEXT | BINARY => cur = []
  | CONT => cur <> []
  | _ => False
  end.

Lemma message_data l done cur f : message_sequence l done cur -> next_ok cur f ->
  if f_fin f then message_sequence (l ++ [f]) (done ++ [cur ++ [f]]) []
  else message_sequence (l ++ [f]) done (cur ++ [f]).
Proof.
  intros (D & C & U) N.
  assert (Df : is_data_b f = true) by (unfold next_ok in N; unfold is_data_b; destruct (f_opcode f); tauto).
  assert (Dl : data_frames (l ++ [f]) = concat done ++ cur ++ [f]).
  { rewrite data_frames_app, D. unfold data_frames. simpl. rewrite Df. symmetry. apply app_assoc. }
  unfold next_ok in N. destruct (f_fin f) eqn:F.
  - split; [|split; [|auto]].
    + rewrite concat_app. simpl. rewrite !app_nil_r. exact Dl.
    + apply Forall_app. split; [exact C|]. constructor; [|constructor].
      destruct (f_opcode f) eqn:O; try contradiction.
      * destruct U as [U|U]; [congruence|]. right. exists cur, f. auto.
      * subst cur. left. exists f. unfold opens. auto.
      * subst cur. left. exists f. unfold opens. auto.
  - split; [exact Dl|]. split; [exact C|]. right.
    destruct (f_opcode f) eqn:O; try contradiction.
    + destruct U as [U|U]; [congruence|]. destruct U as (g & rest & -> & G1 & G2 & G3).
      exists g, (rest ++ [f]). split; [reflexivity|]. split; [exact G1|]. split; [exact G2|].
      apply Forall_app. split; [exact G3|]. constructor; [|constructor].
      split; [exact O|]. unfold final. congruence.
    + subst cur. exists f, []. unfold opens, final. repeat split; auto; congruence.
    + subst cur. exists f, []. unfold opens, final. repeat split; auto; congruence.
Qed.

Lemma message_size_snoc l f : message_size (l ++ [f]) = (message_size l + length (f_data f))%nat.
Proof. unfold message_size. rewrite flat_map_app, app_length. simpl. now rewrite app_nil_r. Qed.

(* the messages in a sequence of frames are determined by the frames *)
Lemma unfinished_not_final m f : unfinished_message m -> In f m -> ~ final f.
Proof.
  intros (g & rest & -> & _ & G & R) [<-|H]; [exact G|]. rewrite Forall_forall in R. now apply R.
Qed.
Lemma complete_split m : complete_message m -> exists p f, m = p ++ [f] /\ final f /\ Forall (fun g => ~ final g) p.
Proof.
  intros [(f & -> & _ & F)|(p & f & -> & U & _ & F)].
  - exists [], f. auto.
  - exists p, f. split; [reflexivity|]. split; [exact F|]. apply Forall_forall. intros g. now apply unfinished_not_final.
Qed.

Lemma app_final_inj p f r p' f' r' :
  p ++ f :: r = p' ++ f' :: r' -> final f -> final f' ->
  Forall (fun g => ~ final g) p -> Forall (fun g => ~ final g) p' -> p = p' /\ f = f' /\ r = r'.
Proof.
  revert p'. induction p as [|a p IH]; intros [|a' p'] E F F' N N'; simpl in E; injection E as -> E.
  - auto.
  - inversion N'; contradiction.
  - inversion N; contradiction.
  - inversion N; inversion N'; subst. destruct (IH p') as (-> & -> & ->); auto.
Qed.

Lemma message_sequence_unique l done cur done' cur' :
  message_sequence l done cur -> message_sequence l done' cur' -> done = done' /\ cur = cur'.
Proof.
  intros (D & C & U) (D' & C' & U'). rewrite D in D'. clear D.
  assert (NF : forall c, c = [] \/ unfinished_message c -> Forall (fun g => ~ final g) c).
  { intros c [->|H]; [constructor|]. apply Forall_forall. intros g. now apply unfinished_not_final. }
  apply NF in U. apply NF in U'. revert done' D' C'. induction done as [|m done IH]; intros [|m' done'] D' C'; simpl in D'.
  - auto.
  - exfalso. apply Forall_inv in C'. destruct (complete_split m') as (p & f & -> & F & _); [assumption|].
    rewrite Forall_forall in U. apply (U f); [|exact F]. rewrite D', !in_app_iff. simpl. auto.
  - exfalso. apply Forall_inv in C. destruct (complete_split m) as (p & f & -> & F & _); [assumption|].
    rewrite Forall_forall in U'. apply (U' f); [|exact F]. rewrite <- D', !in_app_iff. simpl. auto.
  - pose proof (Forall_inv C). pose proof (Forall_inv C'). apply Forall_inv_tail in C. apply Forall_inv_tail in C'. destruct (complete_split m) as (p & f & -> & F & N); [assumption|].
    destruct (complete_split m') as (p' & f' & -> & F' & N'); [assumption|].
    rewrite <- !app_assoc in D'. simpl in D'. apply app_final_inj in D' as (-> & -> & D'); auto.
    destruct (IH C _ D') as [-> ->]; auto.
Qed.

(* what is written determines the frames written *)
Lemma minimal_is_layout wf w : minimal_layout wf w -> layout wf w.
Proof. intros (ext & L & _). now exists ext. Qed.

Lemma skipn_exact {A} n (l r : list A) : n = length l -> skipn n (l ++ r) = r.
Proof. intros ->. rewrite skipn_app, skipn_all, Nat.sub_diag. reflexivity. Qed.

Lemma layout_on_wire_inj f k f' k' w rest w' rest' :
  layout (on_wire f k) w -> layout (on_wire f' k') w' -> w ++ rest = w' ++ rest' ->
  f = f' /\ k = k' /\ rest = rest'.
Proof.
  intros L L' Ew.
  assert (Hm : is_masked (on_wire f k) = is_masked (on_wire f' k')).
  { destruct L as (ext & b0 & b1 & key & body & -> & _ & _ & _ & _ & _ & M & _).
    destruct L' as (ext' & b0' & b1' & key' & body' & -> & _ & _ & _ & _ & _ & M' & _).
    simpl in Ew. injection Ew as _ <- _. unfold is_masked. now rewrite <- M, <- M'. }
  set (r := {| r_buffer := w ++ rest; r_eof := false |}).
  destruct (parse_wire_layout (is_masked (on_wire f k)) None _ w rest r tt L eq_refl) as (res & V & R).
  destruct (parse_wire_layout (is_masked (on_wire f k)) None _ w' rest' r tt L' Ew) as (res' & V' & R').
  assert (Kn : forall g kk, kind_of_opcode (w_opcode (on_wire g kk)) <> None)
    by (intros g kk; apply kind_opcode; simpl; eauto).
  inversion V as [Kf|? Mf|? ? ? Nf|g kk ? ? Og]; subst res; try (exfalso; congruence || (eapply Kn; eassumption)).
  inversion V' as [Kf|? Mf|? ? ? Nf|g' kk' ? ? Og']; subst res'; try (exfalso; congruence || (eapply Kn; eassumption)).
  rewrite R in R'. injection R' as <- Er. split; [|split].
  - destruct f as [fi o d a1 a2 a3], f' as [fi' o' d' b1 b2 b3], g as [gi p e c1 c2 c3].
    unfold on_wire in Og, Og'. simpl in Og, Og'. injection Og as -> -> -> -> O1 _ ->. injection Og' as -> -> -> -> O2 _ ->.
    f_equal. clear -O1 O2. destruct o, o', p; try reflexivity; discriminate.
  - (* the masking keys are in the bytes *)
    pose proof (f_equal w_payload Og) as P1. pose proof (f_equal w_payload Og') as P2. simpl in P1, P2.
    destruct L as (ext & b0 & b1 & key & body & -> & _ & _ & _ & _ & _ & M & Lf & Kk).
    destruct L' as (ext' & b0' & b1' & key' & body' & -> & _ & _ & _ & _ & _ & M' & Lf' & Kk').
    simpl in Ew. injection Ew as _ <- Ew. simpl in *.
    destruct k as [[[[a b'] c] d]|], k' as [[[[a' b''] c'] d']|]; try discriminate Hm; [|reflexivity].
    destruct Kk as [-> _], Kk' as [-> _].
    assert (Le : length ext = length ext').
    { clear -Lf Lf'. remember (octet_value b1 mod 128)%N as q eqn:Eq. clear Eq.
      destruct Lf; inversion Lf'; subst; simpl; try lia; congruence. }
    rewrite <- !app_assoc in Ew. apply (f_equal (skipn (length ext))) in Ew as Es.
    rewrite skipn_exact in Es by reflexivity. rewrite skipn_exact in Es by exact Le. simpl in Es.
    injection Es as -> -> -> -> _. reflexivity.
  - apply (f_equal r_buffer) in Er || idtac. exact Er.
Qed.

Theorem written_unique ws is is' : written ws is -> written ws is' -> is = is'.
Proof.
  intros H. revert is'. induction H as [|w i ws is Hi H IH]; intros is' H'; inversion H' as [|w' i' ws' is2 Hi' H2]; subst; [reflexivity|].
  f_equal; [|auto]. destruct i as [|f k], i' as [|f' k']; simpl in Hi, Hi'.
  - reflexivity.
  - exfalso. subst w. destruct Hi' as (? & (? & ? & ? & ? & ? & _) & _). discriminate.
  - exfalso. subst w. destruct Hi as (? & (? & ? & ? & ? & ? & _) & _). discriminate.
  - destruct (layout_on_wire_inj f k f' k' w [] w []) as (-> & -> & _); auto using minimal_is_layout.
Qed.

(* ---- reading a sequence of data frames from left to right ---- *)

Definition scan1 (st : option bool) (f : frame) : option bool :=
  match st, f_opcode f with
  | Some true, CONT => Some (negb (f_fin f))
  | Some false, TEXT | Some false, BINARY => Some (negb (f_fin f))
  | _, _ => None
  end.
Definition scan (l : list frame) (st : option bool) : option bool := fold_left scan1 l st.

Lemma scan_app l r st : scan (l ++ r) st = scan r (scan l st).
Proof. apply fold_left_app. Qed.

Lemma not_final f : ~ final f -> f_fin f = false.
Proof. unfold final. destruct (f_fin f); congruence. Qed.

Lemma scan_unfinished m : unfinished_message m -> scan m (Some false) = Some true.
Proof.
  intros (f & rest & -> & O & N & R). unfold scan. cbn [fold_left].
  assert (scan1 (Some false) f = Some true) as -> by (unfold scan1; rewrite (not_final f N); destruct O as [-> | ->]; reflexivity).
  induction R as [|g rest [Cg Ng] R IH]; [reflexivity|]. cbn [fold_left].
  assert (scan1 (Some true) g = Some true) as -> by (unfold scan1; rewrite (not_final g Ng), Cg; reflexivity).
  exact IH.
Qed.

Lemma scan_complete m : complete_message m -> scan m (Some false) = Some false.
Proof.
  intros [(f & -> & O & F)|(m' & g & -> & U & C & F)].
  - unfold scan, scan1. cbn [fold_left]. rewrite F. destruct O as [-> | ->]; reflexivity.
  - rewrite scan_app, (scan_unfinished m' U). unfold scan, scan1. cbn [fold_left]. now rewrite C, F.
Qed.

Lemma scan_sequence l done cur : message_sequence l done cur ->
  scan (data_frames l) (Some false) = Some (match cur with [] => false | _ => true end).
Proof.
  intros (-> & C & U). rewrite scan_app.
  assert (scan (concat done) (Some false) = Some false) as ->.
  { induction C as [|m done Cm C IH]; [reflexivity|]. cbn [concat]. now rewrite scan_app, (scan_complete m Cm). }
  destruct U as [-> |U]; [reflexivity|]. rewrite (scan_unfinished cur U).
  destruct cur; [|reflexivity]. destruct U as (f & r & Q & _). discriminate Q.
Qed.

Lemma next_ok_of l done cur f : message_sequence l done cur -> is_data_b f = true ->
  well_formed_messages (l ++ [f]) -> next_ok cur f.
Proof.
  intros Ms Df (done' & cur' & Ms'). apply scan_sequence in Ms. apply scan_sequence in Ms'.
  rewrite data_frames_app, scan_app, Ms in Ms'. unfold data_frames in Ms'. cbn [filter] in Ms'. rewrite Df in Ms'.
  unfold scan, scan1 in Ms'. cbn [fold_left] in Ms'. unfold next_ok.
  destruct cur; destruct (f_opcode f) eqn:O; try discriminate Ms'; try discriminate;
  unfold is_data_b in Df; rewrite O in Df; try discriminate Df; reflexivity.
Qed.

Lemma scan_None l : scan l None = None.
Proof. induction l as [|f l IH]; [reflexivity|exact IH]. Qed.

Lemma scan_well_formed l : forall x, scan (data_frames l) (Some false) = Some x -> well_formed_messages l.
Proof.
  induction l as [|g l IH] using rev_ind; intros x Q; [exists [], []; apply message_sequence_nil|].
  rewrite data_frames_app, scan_app in Q.
  destruct (scan (data_frames l) (Some false)) eqn:Q1; [|now rewrite scan_None in Q].
  destruct (IH _ eq_refl) as (d & c & Ml). destruct (is_data_b g) eqn:Dg; [|exists d, c; now apply message_ctrl].
  unfold data_frames in Q. cbn [filter] in Q. rewrite Dg in Q.
  pose proof (scan_sequence _ _ _ Ml) as Sl. rewrite Q1 in Sl. injection Sl as ->.
  assert (N : next_ok c g).
  { unfold scan, scan1 in Q. cbn [fold_left] in Q. unfold next_ok.
    destruct c; destruct (f_opcode g) eqn:O; try discriminate Q; try discriminate;
    unfold is_data_b in Dg; rewrite O in Dg; try discriminate Dg; reflexivity. }
  pose proof (message_data _ _ _ g Ml N) as Mg. destruct (f_fin g); eexists _, _; exact Mg.
Qed.

(* prefixes of well-formed sequences are well-formed *)
Lemma well_formed_prefix l r : well_formed_messages (l ++ r) -> well_formed_messages l.
Proof.
  intros (done' & cur' & Ms'). apply scan_sequence in Ms'. rewrite data_frames_app, scan_app in Ms'.
  destruct (scan (data_frames l) (Some false)) eqn:Q; [|now rewrite scan_None in Ms'].
  eapply scan_well_formed; exact Q.
Qed.
