(* Close codes and reasons go from one end of the connection to the other one with the asyncio API (C86). *)
From Verif Require Import Base.Prelude Base.PreludeFacts Model.Streams Model.Frames
  Model.LegacyFraming Model.LegacyProtocol Spec.Rfc6455 Spec.FrameSpec Spec.Messages Spec.Asyncio Spec.AsyncioCloseCodes
  Model.PermessageDeflate Spec.Deflate Proofs.FramesFacts Proofs.WireUnique Proofs.DeflateFacts Proofs.DeflateRun Proofs.StoredZlib
  Proofs.LegacyClose Proofs.LegacyWire Proofs.LegacyGrowth Proofs.LegacyEndToEnd Proofs.LegacyRead Proofs.LegacyDeflate Proofs.LegacyCloseOrigin
  Properties.FrameCodec Properties.Deflate Properties.AsyncioState Properties.AsyncioMessages Properties.AsyncioCalls
  Properties.AsyncioSends Properties.AsyncioEndToEnd.
Local Open Scope N_scope.

(* ---- C86 ---- *)

Lemma serialized_close f code reason : f_opcode f = CLOSE -> serialize_close code reason = Ok (f_data f) ->
  close_frame f code reason.
Proof. intros O S. apply close_frame_parses. split; [exact O|]. now apply C06_close_round_trip. Qed.

(* All close frames come from a call to close(), from a close frame received or from a failure. *)
Theorem C86_origin :
  forall E (X : ext_ops E) cfg exts ls st x,
    execution X cfg exts ls st -> In x (p_out st) -> f_opcode (o_frame x) = CLOSE ->
    exists code reason, chosen ls x code reason \/ in_response (p_in st) x code reason.
Proof.
  intros E X cfg exts ls st x H Hx C. pose proof (origin_exec X cfg exts ls st H) as F.
  rewrite Forall_forall in F. specialize (F x Hx C). unfold origin in F.
  destruct (o_by x) as [| | |i] eqn:By; [|contradiction| |].
  - destruct F as (f & F1 & F2 & F3 & [code reason] & F4). exists code, reason. right.
    assert (Cf : forall g, f_opcode g = CLOSE -> f_data g = f_data (o_frame x) -> close_frame g code reason).
    { intros g G1 G2. apply close_frame_parses. split; [exact G1|]. now rewrite G2. }
    split; [now apply Cf|]. split; [exact By|]. exists f. split; [exact F1|]. split; [now apply Cf|exact F3].
  - destruct F as (code & F1 & _ & F2). exists code, []. left. right. split; [now apply serialized_close|].
    split; [exact By|]. split; [reflexivity|]. exact F1.
  - destruct F as (code & reason & F1 & F2). exists code, reason. left. left. split; [now apply serialized_close|].
    exists i. split; [exact By|exact F1].
Qed.

Lemma chosen_more ls l x code reason : chosen ls x code reason -> chosen (ls ++ [l]) x code reason.
Proof.
  intros [(C & i & B & N)|(C & B & R & F)]; [left|right].
  - split; [exact C|]. exists i. split; [exact B|]. unfold calls in *. rewrite flat_map_app, nth_error_app1; [exact N|].
    apply nth_error_Some. congruence.
  - repeat (split; [assumption|]). rewrite in_app_iff. tauto.
Qed.
Lemma chosen_close ls x code reason : chosen ls x code reason -> close_frame (o_frame x) code reason.
Proof. intros [[C _]|[C _]]; exact C. Qed.
Lemma same_close f g code reason code' reason' :
  close_frame f code reason -> close_frame g code' reason' -> f_data f = f_data g -> code = code' /\ reason = reason'.
Proof.
  intros F G D. apply close_frame_parses in F as [_ F]. apply close_frame_parses in G as [_ G].
  rewrite D in F. rewrite F in G. apply ok_inj in G. injection G. auto.
Qed.
Lemma connected_runs E (X : ext_ops E) cfgA extsA cfgB extsB lsA stA lsB stB :
  connected X cfgA extsA cfgB extsB lsA stA lsB stB ->
  execution X cfgA extsA lsA stA /\ execution X cfgB extsB lsB stB /\
  in_transit (p_out stA) (incoming lsB) /\ in_transit (p_out stB) (incoming lsA).
Proof.
  unfold execution. induction 1 as [|lsA stA lsB stB l stA' _ (IA & IB & TA & TB) S T|lsA stA lsB stB l stB' _ (IA & IB & TA & TB) S T].
  - repeat split; exists []; reflexivity.
  - split; [rewrite exec_app, IA; cbn [exec]; now rewrite S|]. split; [exact IB|]. split; [|exact T].
    destruct TA as [fl TA].
    destruct (origin_step X cfgA extsA lsA l stA stA' IA S) as [(new & -> & _) _].
    exists (fl ++ flat_map o_bytes new). now rewrite flat_map_app, TA, app_assoc.
  - split; [exact IA|]. split; [rewrite exec_app, IB; cbn [exec]; now rewrite S|]. split; [exact T|].
    destruct TB as [fl TB].
    destruct (origin_step X cfgB extsB lsB l stB stB' IB S) as [(new & -> & _) _].
    exists (fl ++ flat_map o_bytes new). now rewrite flat_map_app, TB, app_assoc.
Qed.
(* The roles of the two ends may be exchanged. *)
Theorem C86_symmetric :
  forall E (X : ext_ops E) cfgA extsA cfgB extsB lsA stA lsB stB,
    connected X cfgA extsA cfgB extsB lsA stA lsB stB -> connected X cfgB extsB cfgA extsA lsB stB lsA stA.
Proof. induction 1; [constructor|now apply connected_B with stA|now apply connected_A with stB]. Qed.

Section Pair.
Context {E : Type} (X : ext_ops E) (cfgA : config) (extsA : list E) (cfgB : config) (extsB : list E).
Notation conn2 := (connected X cfgA extsA cfgB extsB).
(* each end reads the frames which the other one writes *)
Definition reads (a b_ : conn E) : Prop := exists later, map o_frame (p_out b_) = p_in a ++ later.
Definition explained lsA lsB (outB : list sent) (x : sent) : Prop :=
  exists code reason, chosen lsA x code reason \/
    (close_frame (o_frame x) code reason /\ o_by x = ByTransfer /\
     exists y, In y outB /\ chosen lsB y code reason).
Definition all_explained lsA (outA : list sent) lsB outB : Prop :=
  forall x, In x outA -> f_opcode (o_frame x) = CLOSE -> explained lsA lsB outB x.

Lemma one_step cfg exts ls (st : conn E) l st' lsB outB :
  execution X cfg exts ls st -> step X cfg st l = Some st' ->
  (exists later, map o_frame outB = p_in st' ++ later) ->
  all_explained ls (p_out st) lsB outB -> all_explained lsB outB ls (p_out st) ->
  all_explained (ls ++ [l]) (p_out st') lsB outB /\ all_explained lsB outB (ls ++ [l]) (p_out st').
Proof.
  intros H S [later R] A B.
  assert (H' : execution X cfg exts (ls ++ [l]) st') by (unfold execution in *; rewrite exec_app, H; cbn [exec]; now rewrite S).
  destruct (origin_step X cfg exts ls l st st' H S) as [(new & Ho & _) _].
  split.
  - intros x Hx C. destruct (C86_origin E X cfg exts _ st' x H' Hx C) as (code & reason & [Ch|(Cf & By & f & F1 & F2 & F3)]);
      [exists code, reason; now left|].
    rewrite Ho in Hx. apply in_app_or in Hx as [Hx|Hx].
    + destruct (A x Hx C) as (c & r & [Ch|Q]); exists c, r; [left; now apply chosen_more|now right].
    + assert (Hf : In f (map o_frame outB)) by (rewrite R; apply in_or_app; now left).
      apply in_map_iff in Hf as (y & Hy1 & Hy2). subst f.
      destruct (B y Hy2 (proj1 F2)) as (c & r & [Ch|(_ & _ & x0 & X1 & X2)]).
      * destruct (same_close _ _ _ _ _ _ F2 (chosen_close _ _ _ _ Ch) eq_refl) as [<- <-].
        exists code, reason. right. split; [exact Cf|]. split; [exact By|]. now exists y.
      * exfalso. apply in_split in X1 as (before & after & X1). rewrite X1, <- app_assoc in Ho. cbn [app] in Ho.
        destruct (C61_one_close_frame E X cfg exts _ st' before x0 (after ++ new) H' Ho (proj1 (chosen_close _ _ _ _ X2))) as [Q _].
        apply app_eq_nil in Q as [_ ->]. exact Hx.
  - intros y Hy C. destruct (B y Hy C) as (c & r & [Ch|(Q1 & Q2 & x & Q3 & Q4)]); exists c, r; [now left|right].
    split; [exact Q1|]. split; [exact Q2|]. exists x. split; [rewrite Ho; apply in_or_app; now left|now apply chosen_more].
Qed.

Variable ok : list label -> list label -> Prop.
Hypothesis ok_A : forall lsA l lsB, ok (lsA ++ [l]) lsB -> ok lsA lsB.
Hypothesis ok_B : forall lsA lsB l, ok lsA (lsB ++ [l]) -> ok lsA lsB.
Hypothesis reading : forall lsA stA lsB stB, conn2 lsA stA lsB stB -> ok lsA lsB -> reads stA stB /\ reads stB stA.
Lemma explained_connected lsA stA lsB stB : conn2 lsA stA lsB stB -> ok lsA lsB ->
  all_explained lsA (p_out stA) lsB (p_out stB) /\ all_explained lsB (p_out stB) lsA (p_out stA).
Proof.
  induction 1 as [|lsA stA lsB stB l stA' C IH S T|lsA stA lsB stB l stB' C IH S T]; intros Ok.
  - split; intros x [].
  - destruct (connected_runs _ _ _ _ _ _ _ _ _ _ C) as (HA & _ & _).
    destruct (reading _ _ _ _ (connected_A _ _ _ _ _ _ _ _ _ _ _ C S T) Ok) as [R _].
    destruct (IH (ok_A _ _ _ Ok)) as [IA IB].
    exact (one_step cfgA extsA lsA stA l stA' lsB (p_out stB) HA S R IA IB).
  - destruct (connected_runs _ _ _ _ _ _ _ _ _ _ C) as (_ & HB & _).
    destruct (reading _ _ _ _ (connected_B _ _ _ _ _ _ _ _ _ _ _ C S T) Ok) as [_ R].
    destruct (IH (ok_B _ _ _ Ok)) as [IA IB].
    destruct (one_step cfgB extsB lsB stB l stB' lsA (p_out stA) HB S R IB IA). now split.
Qed.

(* the close frame is the last frame written *)
Lemma close_last cfg exts ls (st : conn E) x : execution X cfg exts ls st -> In x (p_out st) -> f_opcode (o_frame x) = CLOSE ->
  exists before, p_out st = before ++ [x].
Proof.
  intros H Hx C. apply in_split in Hx as (before & after & Hx). exists before.
  destruct (C61_one_close_frame E X cfg exts _ st before x after H Hx C) as [-> _]. exact Hx.
Qed.
Lemma closed_code lsA stA lsB stB : conn2 lsA stA lsB stB -> ok lsA lsB -> p_state stB = Closed ->
  exists code reason, p_close stB = Some (code, reason) /\ from_peer lsA stA lsB stB code reason.
Proof.
  intros C Ok Hc. destruct (connected_runs _ _ _ _ _ _ _ _ _ _ C) as (HA & HB & _).
  destruct (C65_close_code E X cfgB extsB lsB stB HB Hc) as (code & reason & Hk & [(l & f & L1 & L2 & _)|(-> & -> & L)]);
    [|exists 1006%Z, []; split; [exact Hk|now left]].
  exists code, reason. split; [exact Hk|]. right.
  destruct (reading _ _ _ _ C Ok) as [_ [later R]]. rewrite L1 in R.
  assert (Hf : In f (map o_frame (p_out stA))) by (rewrite R; apply in_or_app; left; apply in_or_app; right; now left).
  apply in_map_iff in Hf as (x & Hx1 & Hx2). subst f.
  destruct (close_last cfgA extsA lsA stA x HA Hx2 (proj1 L2)) as [before Bx]. exists before, x. split; [exact Bx|].
  destruct (explained_connected _ _ _ _ C Ok) as [A _].
  destruct (A x Hx2 (proj1 L2)) as (c & r & [Ch|(Cf & By & y & Y1 & Y2)]).
  - destruct (same_close _ _ _ _ _ _ L2 (chosen_close _ _ _ _ Ch) eq_refl) as [<- <-]. now left.
  - destruct (same_close _ _ _ _ _ _ L2 Cf eq_refl) as [<- <-]. right. split; [exact Cf|]. split; [exact By|].
    destruct (close_last cfgB extsB lsB stB y HB Y1 (proj1 (chosen_close _ _ _ _ Y2))) as [before' By']. now exists before', y.
Qed.
End Pair.

(* without extensions *)
Lemma reads_plain cfgA lsA (stA : conn Empty_set) cfgB lsB (stB : conn Empty_set) :
  c_client cfgB = negb (c_client cfgA) -> (forall n, length (c_key cfgA n) = 4%nat) ->
  execution no_ext cfgA [] lsA stA -> execution no_ext cfgB [] lsB stB -> in_transit (p_out stA) (incoming lsB) ->
  reads stB stA.
Proof.
  intros Hc Hk HA HB (fl & Hb).
  assert (No : forall l : list Empty_set, l = []) by (intros [|[] ?]; reflexivity).
  destruct (C56_wire cfgB lsB stB HB) as (wires & unread & _ & _ & W1 & W2 & _).
  eapply (frames_prefix (c_client cfgA) _ _ (p_in stB) wires unread fl).
  - exact (written_framed no_ext cfgA No Hk [] lsA stA HA).
  - clear - W2 Hc. induction W2 as [|f w fs ws (key & L & _ & M) _ IH]; constructor; [|exact IH].
    exists key. split; [exact L|]. rewrite M, Hc. apply Bool.negb_involutive.
  - rewrite <- flat_map_concat_map, Hb. change (incoming lsB) with (LegacyWire.received lsB).
    rewrite W1, <- app_assoc. reflexivity.
Qed.
Lemma reading_plain cfgA cfgB : c_client cfgB = negb (c_client cfgA) ->
  (forall n, length (c_key cfgA n) = 4%nat) -> (forall n, length (c_key cfgB n) = 4%nat) ->
  forall lsA stA lsB stB, connected no_ext cfgA [] cfgB [] lsA stA lsB stB -> reads stA stB /\ reads stB stA.
Proof.
  intros Hc KA KB lsA stA lsB stB C. destruct (connected_runs _ _ _ _ _ _ _ _ _ _ C) as (HA & HB & TA & TB).
  split; [apply (reads_plain cfgB lsB stB cfgA lsA stA)|apply (reads_plain cfgA lsA stA cfgB lsB stB)]; auto.
  now rewrite Hc, Bool.negb_involutive.
Qed.

(* When connection B is closed, its close code and its close reason are those which one of the ends gave
   to close(), or a code for a failure; otherwise the close code is 1006. *)
Theorem C86_close_code_end_to_end :
  forall cfgA cfgB lsA stA lsB stB,
    c_client cfgB = negb (c_client cfgA) ->
    (forall n, length (c_key cfgA n) = 4%nat) -> (forall n, length (c_key cfgB n) = 4%nat) ->
    connected no_ext cfgA [] cfgB [] lsA stA lsB stB -> p_state stB = Closed ->
    exists code reason, p_close stB = Some (code, reason) /\ from_peer lsA stA lsB stB code reason.
Proof.
  intros cfgA cfgB lsA stA lsB stB Hc KA KB C. apply (closed_code no_ext cfgA [] cfgB [] (fun _ _ => True)); auto.
  intros a b_ c d Q _. revert Q. now apply reading_plain.
Qed.

Lemma same_code {E} lsA (stA : conn E) lsB stB cA rA cB rB : from_peer lsA stA lsB stB cB rB -> from_peer lsB stB lsA stA cA rA ->
  agree lsA stA lsB stB cA rA cB rB.
Proof.
  intros F G.
  destruct F as [(-> & _ & F)|(b1 & x & X1 & F)]; [right; right; left; now split|].
  destruct G as [(-> & _ & G)|(b2 & y & Y1 & G)]; [right; left; now split|].
  assert (L : forall T (l l' : list T) u v, l ++ [u] = l' ++ [v] -> u = v) by (intros T l l' u v Q; now apply app_inj_tail in Q).
  destruct F as [F|(Fx & _ & b3 & y' & Y2 & F)].
  - destruct G as [G|(Gy & _ & b4 & x' & X2 & G)].
    + right; right; right. exists x, y. rewrite X1, Y1. repeat split; auto; apply in_or_app; right; now left.
    + left. rewrite X1 in X2. apply L in X2 as <-. apply chosen_close in F, G.
      destruct (same_close _ _ _ _ _ _ F G eq_refl). now split.
  - left. rewrite Y1 in Y2. apply L in Y2 as <-.
    assert (Gy : close_frame (o_frame y) cA rA) by (destruct G as [G|(G & _)]; [now apply chosen_close in G|exact G]).
    apply chosen_close in F. destruct (same_close _ _ _ _ _ _ F Gy eq_refl). now split.
Qed.
(* The two ends report the same code and the same reason, unless an end receives no close frame or both
   of them choose a code and a reason before receiving the close frame of the other one. *)
Theorem C86_same_code :
  forall cfgA cfgB lsA stA lsB stB codeA reasonA codeB reasonB,
    c_client cfgB = negb (c_client cfgA) ->
    (forall n, length (c_key cfgA n) = 4%nat) -> (forall n, length (c_key cfgB n) = 4%nat) ->
    connected no_ext cfgA [] cfgB [] lsA stA lsB stB -> p_state stA = Closed -> p_state stB = Closed ->
    p_close stA = Some (codeA, reasonA) -> p_close stB = Some (codeB, reasonB) ->
    agree lsA stA lsB stB codeA reasonA codeB reasonB.
Proof.
  intros cfgA cfgB lsA stA lsB stB cA rA cB rB Hc KA KB C HA HB EA EB.
  destruct (C86_close_code_end_to_end cfgA cfgB lsA stA lsB stB Hc KA KB C HB) as (c & r & E1 & F).
  rewrite EB in E1. injection E1 as <- <-.
  destruct (C86_close_code_end_to_end cfgB cfgA lsB stB lsA stA) as (c & r & E1 & G); auto.
  { now rewrite Hc, Bool.negb_involutive. }
  { now apply C86_symmetric. }
  rewrite EA in E1. injection E1 as <- <-. now apply same_code.
Qed.

(* With permessage-deflate. *)
Lemma no_overlap_prefix {E} (X : ext_ops E) cfg exts ls l : no_overlap X cfg exts (ls ++ [l]) -> no_overlap X cfg exts ls.
Proof. intros N before l' after st -> H. apply (N before l' (after ++ [l]) st); [now rewrite <- app_assoc|exact H]. Qed.
Lemma reads_compressed zl sync (p q : pmd zl) lb sa rn ln rb rn' ln' rb' lb' sb cfgA lsA stA cfgB lsB stB :
  correct_zlib zl sync -> reports_limit zl sync -> expands_little zl -> can_compress zl lb sa -> can_decompress zl ->
  pmd_init rn ln rb lb sa = Ok p -> pmd_init rn' ln' rb' lb' sb = Ok q -> mirrored p q ->
  c_client cfgB = negb (c_client cfgA) -> (forall n, length (c_key cfgA n) = 4%nat) ->
  execution (pmd_ops zl) cfgA [p] lsA stA -> no_overlap (pmd_ops zl) cfgA [p] lsA -> Forall small_label lsA ->
  execution (pmd_ops zl) cfgB [q] lsB stB -> in_transit (p_out stA) (incoming lsB) ->
  reads stB stA.
Proof.
  intros Zc Rl Ex Cc Cd Hp Hq Mi Hc Hk HA N Sm HB (fl & Hb). change (incoming lsB) with (LegacyWire.received lsB) in Hb.
  pose proof (init_linked sync Zc _ _ _ _ _ _ _ _ _ _ _ _ Hp Hq Mi Cc Cd) as Lk.
  destruct (wrote_exec Ex cfgA Hk [p] lsA stA Sm HA p eq_refl (lk_comp _ _ _ _ Lk)) as (p' & new & gs & _ & _ & Ho & En & _ & Fr & Rs).
  cbn [p_out initial app] in Ho. subst new.
  destruct (WireX_exec (pmd_ops zl) cfgB wrd wrd_refl wrd_trans (wrd_write cfgB) [q] lsB stB HB) as (gns & ws & rest & e & W1 & W2 & _).
  destruct (frames_prefix (c_client cfgA) gs (map o_bytes (p_out stA)) (map fst gns) ws rest fl) as [later Hg].
  { exact Fr. }
  { pose proof (reads_framed _ _ _ _ _ _ W2) as Rf. now rewrite Hc, Bool.negb_involutive in Rf. }
  { rewrite <- flat_map_concat_map, Hb, W1, <- app_assoc. reflexivity. }
  destruct (C60_not_interleaved_partial (pmd zl) (pmd_ops zl) cfgA [p] lsA stA HA N) as (done & cur & D1 & D2 & D3).
  assert (Le : legal false (map o_frame (p_out stA))).
  { apply legal_messages. exists (map (map o_frame) done), (map o_frame cur). unfold message_sequence. rewrite data_frames_map, D1, map_app, concat_map.
    split; [reflexivity|]. split; [apply Forall_map; revert D2; apply Forall_impl; intros m [H _]; exact H|].
    destruct D3 as [->|(w & H & _)]; [now left|now right]. }
  assert (Rs' : Forall (fun f => f_rsv1 f = false) (map o_frame (p_out stA))).
  { apply Forall_map. revert Rs. apply Forall_impl. intros x H. apply H. }
  destruct (reads_prefix sync Zc Rl cfgB p q _ gs Lk Le Rs' En _ _ _ _ W2 (ex_intro _ later Hg)) as (l' & _ & _ & Hl & _).
  exists l'. exact Hl.
Qed.

(* The same with permessage-deflate, for any zlib which does what the documentation says, when fragmented
   messages don't overlap (C60) and messages are small enough. *)
Theorem C86_compressed_partial :
  forall zl sync rn ln rb lb sa rn' ln' rb' lb' sb (p q : pmd zl) cfgA cfgB lsA stA lsB stB,
    correct_zlib zl sync -> reports_limit zl sync -> expands_little zl ->
    can_compress zl lb sa -> can_compress zl lb' sb -> can_decompress zl ->
    pmd_init rn ln rb lb sa = Ok p -> pmd_init rn' ln' rb' lb' sb = Ok q -> mirrored p q ->
    c_client cfgB = negb (c_client cfgA) ->
    (forall n, length (c_key cfgA n) = 4%nat) -> (forall n, length (c_key cfgB n) = 4%nat) ->
    no_overlap (pmd_ops zl) cfgA [p] lsA -> Forall small_label lsA ->
    no_overlap (pmd_ops zl) cfgB [q] lsB -> Forall small_label lsB ->
    connected (pmd_ops zl) cfgA [p] cfgB [q] lsA stA lsB stB ->
    (p_state stB = Closed ->
     exists code reason, p_close stB = Some (code, reason) /\ from_peer lsA stA lsB stB code reason) /\
    forall codeA reasonA codeB reasonB,
      p_state stA = Closed -> p_state stB = Closed ->
      p_close stA = Some (codeA, reasonA) -> p_close stB = Some (codeB, reasonB) ->
      agree lsA stA lsB stB codeA reasonA codeB reasonB.
Proof.
  intros zl sync rn ln rb lb sa rn' ln' rb' lb' sb p q cfgA cfgB lsA stA lsB stB Zc Rl Ex Ca Cb Cd Hp Hq Mi Hc KA KB NA SA NB SB C.
  set (ok := fun a b_ => no_overlap (pmd_ops zl) cfgA [p] a /\ Forall small_label a /\ no_overlap (pmd_ops zl) cfgB [q] b_ /\ Forall small_label b_).
  assert (Hc' : c_client cfgA = negb (c_client cfgB)) by now rewrite Hc, Bool.negb_involutive.
  assert (Mi' : mirrored q p) by (destruct Mi as (M1 & M2 & M3 & M4); repeat split; congruence).
  assert (OA : forall a l b_, ok (a ++ [l]) b_ -> ok a b_).
  { intros a l b_ (O1 & O2 & O3). split; [exact (no_overlap_prefix _ _ _ _ _ O1)|]. split; [now apply Forall_app in O2|exact O3]. }
  assert (OB : forall a b_ l, ok a (b_ ++ [l]) -> ok a b_).
  { intros a b_ l (O1 & O2 & O3 & O4). split; [exact O1|]. split; [exact O2|].
    split; [exact (no_overlap_prefix _ _ _ _ _ O3)|now apply Forall_app in O4]. }
  assert (Rd : forall a sa_ b_ sb_, connected (pmd_ops zl) cfgA [p] cfgB [q] a sa_ b_ sb_ -> ok a b_ -> reads sa_ sb_ /\ reads sb_ sa_).
  { intros a sa_ b_ sb_ C' (O1 & O2 & O3 & O4).
    destruct (connected_runs _ _ _ _ _ _ _ _ _ _ C') as (HA & HB & TA & TB). split.
    - exact (reads_compressed zl sync q p _ _ _ _ _ _ _ _ _ _ cfgB b_ sb_ cfgA a sa_ Zc Rl Ex Cb Cd Hq Hp Mi' Hc' KB HB O3 O4 HA TB).
    - exact (reads_compressed zl sync p q _ _ _ _ _ _ _ _ _ _ cfgA a sa_ cfgB b_ sb_ Zc Rl Ex Ca Cd Hp Hq Mi Hc KA HA O1 O2 HB TA). }
  assert (OkAB : ok lsA lsB) by exact (conj NA (conj SA (conj NB SB))).
  split.
  - exact (closed_code (pmd_ops zl) cfgA [p] cfgB [q] ok OA OB Rd lsA stA lsB stB C OkAB).
  - intros cA rA cB rB HA HB EA EB.
    destruct (closed_code (pmd_ops zl) cfgA [p] cfgB [q] ok OA OB Rd lsA stA lsB stB C OkAB HB) as (c & r & E1 & F).
    rewrite EB in E1. injection E1 as <- <-.
    destruct (closed_code (pmd_ops zl) cfgB [q] cfgA [p] (fun a b_ => ok b_ a)) with (lsA := lsB) (stA := stB) (lsB := lsA) (stB := stA)
      as (c & r & E1 & G); auto.
    { intros a l b_. apply OB. }
    { intros a b_ l. apply OA. }
    { intros a sa_ b_ sb_ C' O. apply C86_symmetric in C'. destruct (Rd _ _ _ _ C' O). now split. }
    { now apply C86_symmetric. }
    rewrite EA in E1. injection E1 as <- <-. now apply same_code.
Qed.

(* The checks of the examples are made by running the steps of both ends. *)
Fixpoint both {E} (X : ext_ops E) cfgA cfgB (lsA : list label) (stA : conn E) (lsB : list label) (stB : conn E) (ls : list (bool * label))
  : option (list label * conn E * list label * conn E) :=
  match ls with
  | [] => Some (lsA, stA, lsB, stB)
  | (true, l) :: ls =>
      match step X cfgA stA l with
      | Some stA' =>
          let w := flat_map o_bytes (p_out stB) in let g := incoming (lsA ++ [l]) in
          if bytes_eqb w (g ++ skipn (length g) w) then both X cfgA cfgB (lsA ++ [l]) stA' lsB stB ls else None
      | None => None
      end
  | (false, l) :: ls =>
      match step X cfgB stB l with
      | Some stB' =>
          let w := flat_map o_bytes (p_out stA) in let g := incoming (lsB ++ [l]) in
          if bytes_eqb w (g ++ skipn (length g) w) then both X cfgA cfgB lsA stA (lsB ++ [l]) stB' ls else None
      | None => None
      end
  end.
Lemma both_connected E (X : ext_ops E) cfgA extsA cfgB extsB ls : forall lsA stA lsB stB lsA' stA' lsB' stB',
  connected X cfgA extsA cfgB extsB lsA stA lsB stB ->
  both X cfgA cfgB lsA stA lsB stB ls = Some (lsA', stA', lsB', stB') ->
  connected X cfgA extsA cfgB extsB lsA' stA' lsB' stB'.
Proof.
  induction ls as [|[[] l] ls IH]; intros lsA stA lsB stB lsA' stA' lsB' stB' C H; cbn [both] in H.
  - apply some_inj, pair_equal_spec in H as [H <-]. apply pair_equal_spec in H as [H <-].
    apply pair_equal_spec in H as [<- <-]. exact C.
  - destruct (step X cfgA stA l) as [s1|] eqn:S; [|discriminate].
    destruct (bytes_eqb _ _) eqn:B; [|discriminate]. apply bytes_eqb_eq in B.
    refine (IH _ _ _ _ _ _ _ _ _ H). apply (connected_A _ _ _ _ _ _ _ _ _ _ _ C S). eexists. exact B.
  - destruct (step X cfgB stB l) as [s1|] eqn:S; [|discriminate].
    destruct (bytes_eqb _ _) eqn:B; [|discriminate]. apply bytes_eqb_eq in B.
    refine (IH _ _ _ _ _ _ _ _ _ H). apply (connected_B _ _ _ _ _ _ _ _ _ _ _ C S). eexists. exact B.
Qed.
Definition side (w : bool) (ls : list (bool * label)) : list label := map snd (filter (fun x => Bool.eqb (fst x) w) ls).
Lemma both_sides E (X : ext_ops E) cfgA cfgB ls : forall lsA stA lsB stB lsA' stA' lsB' stB',
  both X cfgA cfgB lsA stA lsB stB ls = Some (lsA', stA', lsB', stB') ->
  lsA' = lsA ++ side true ls /\ lsB' = lsB ++ side false ls.
Proof.
  induction ls as [|[[] l] ls IH]; intros lsA stA lsB stB lsA' stA' lsB' stB' H; cbn [both] in H.
  - apply some_inj, pair_equal_spec in H as [H <-]. apply pair_equal_spec in H as [H <-].
    apply pair_equal_spec in H as [<- <-]. cbn [side filter map]. now rewrite !app_nil_r.
  - destruct (step X cfgA stA l) as [s1|]; [|discriminate]. destruct (bytes_eqb _ _); [|discriminate].
    apply IH in H as [-> ->]. now rewrite <- app_assoc.
  - destruct (step X cfgB stB l) as [s1|]; [|discriminate]. destruct (bytes_eqb _ _); [|discriminate].
    apply IH in H as [-> ->]. now rewrite <- app_assoc.
Qed.
Lemma by_connection E (X : ext_ops E) cfgA extsA cfgB extsB ls (P : conn E -> conn E -> bool) :
  match both X cfgA cfgB [] (initial extsA) [] (initial extsB) ls with
  | Some (_, stA, _, stB) => P stA stB
  | None => false
  end = true ->
  exists stA stB, connected X cfgA extsA cfgB extsB (side true ls) stA (side false ls) stB /\ P stA stB = true.
Proof.
  destruct (both _ _ _ _ _ _ _ _) as [[[[lsA stA] lsB] stB]|] eqn:B; [|discriminate].
  destruct (both_sides _ _ _ _ _ _ _ _ _ _ _ _ _ B) as [-> ->]. cbn [app] in *.
  intros H. exists stA, stB. split; [|exact H]. revert B. apply both_connected. constructor.
Qed.

(* The client calls close(1001, "bye"), the server answers, and both report 1001 and "bye". *)
Definition ex_closing {E} (X : ext_ops E) (exts : list E) : bytes :=
  match exec X ex_config (initial exts) [LOpen; LC Go; LCall (CallClose 1001 (s "bye")); LUser 0 Go] with
  | Some st => flat_map o_bytes (p_out st) | None => [] end.
Definition ex_both {E} (X : ext_ops E) (exts : list E) : list (bool * label) :=
  [(true, LOpen); (false, LOpen); (true, LC Go); (false, LC Go);
   (true, LCall (CallClose 1001 (s "bye"))); (true, LUser 0%nat Go);
   (false, LData (ex_closing X exts)); (false, LT Go);
   (true, LData (bs [136; 5; 3; 233] ++ b "bye")); (true, LT Go);
   (true, LLost None true); (false, LLost None true)].
Definition ex_codes {E} (code : Z) (reason : str) (st : conn E) : bool :=
  match p_state st, p_close st with
  | Closed, Some (c, r) => (c =? code)%Z && str_eqb r reason
  | _, _ => false
  end.
Example C86_applies :
  (exists stA stB,
    connected no_ext ex_config [] ex_server [] (side true (ex_both no_ext [])) stA (side false (ex_both no_ext [])) stB /\
    ex_codes 1001 (s "bye") stA && ex_codes 1001 (s "bye") stB = true) /\
  c_client ex_server = negb (c_client ex_config) /\
  (forall n, length (c_key ex_config n) = 4%nat) /\ (forall n, length (c_key ex_server n) = 4%nat).
Proof.
  split; [apply (by_connection _ _ _ _ _ _ (ex_both no_ext [])); vm_compute; reflexivity|]. repeat split.
Qed.

(* The same with compression. *)
Definition ex_both_compressed := ex_both (pmd_ops stored_zlib) [ex_client_pmd].
Example C86_compressed_applies :
  (exists stA stB,
    connected (pmd_ops stored_zlib) ex_config [ex_client_pmd] ex_server [ex_server_pmd]
      (side true ex_both_compressed) stA (side false ex_both_compressed) stB /\
    ex_codes 1001 (s "bye") stA && ex_codes 1001 (s "bye") stB = true) /\
  no_overlap (pmd_ops stored_zlib) ex_config [ex_client_pmd] (side true ex_both_compressed) /\
  Forall small_label (side true ex_both_compressed) /\
  no_overlap (pmd_ops stored_zlib) ex_server [ex_server_pmd] (side false ex_both_compressed) /\
  Forall small_label (side false ex_both_compressed).
Proof.
  split; [apply (by_connection _ _ _ _ _ _ ex_both_compressed); vm_compute; reflexivity|].
  split; [apply no_overlap_check; vm_compute; reflexivity|].
  split; [repeat constructor|].
  split; [apply no_overlap_check; vm_compute; reflexivity|repeat constructor].
Qed.

Print Assumptions C86_origin.
Print Assumptions C86_symmetric.
Print Assumptions C86_close_code_end_to_end.
Print Assumptions C86_same_code.
Print Assumptions C86_compressed_partial.
