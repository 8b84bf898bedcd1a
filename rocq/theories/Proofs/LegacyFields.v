(* Invariants of the asyncio connection that don't depend on the coroutines in progress. *)
From Coq Require Import Sorted.
From Verif Require Import Base.Prelude Base.PreludeFacts Model.Streams Model.Frames
  Model.LegacyFraming Model.LegacyProtocol Spec.Asyncio Proofs.LegacyPrims.
Local Open Scope N_scope.

Lemma length_replace {A} w (v : A) l : length (replace w v l) = length l.
Proof. revert w. induction l; intros []; cbn [replace length]; auto. Qed.
Lemma nth_error_replace_eq {A} w (v : A) l : (w < length l)%nat -> nth_error (replace w v l) w = Some v.
Proof.
  revert w. induction l as [|x l IH]; cbn [length]; [lia|].
  intros [|w]; cbn [replace nth_error]; [reflexivity|]. intros. apply IH. lia.
Qed.
Lemma nth_error_replace_neq {A} w w' (v : A) l :
  w <> w' -> nth_error (replace w v l) w' = nth_error l w'.
Proof.
  revert w w'. induction l as [|x l IH]; [now intros [] []|].
  intros [|w] [|w'] H; cbn [replace nth_error]; try reflexivity; [congruence|]. apply IH. congruence.
Qed.
Lemma get_fut_nth futs w f : nth_error futs w = Some f -> get_fut futs w = f.
Proof. unfold get_fut. apply nth_error_nth. Qed.
Lemma get_fut_pending futs w : pending futs w -> get_fut futs w = FPending.
Proof. apply get_fut_nth. Qed.
Lemma get_fut_pending_inv (futs : list fut) w :
  (w < length futs)%nat -> fut_done (get_fut futs w) = false -> pending futs w.
Proof.
  unfold get_fut, pending. intros L H.
  destruct (nth_error futs w) as [f|] eqn:Ef; [|apply nth_error_None in Ef; lia].
  rewrite (nth_error_nth _ _ _ Ef) in H. now destruct f.
Qed.
Lemma pending_lt (futs : list fut) w f : nth_error futs w = Some f -> (w < length futs)%nat.
Proof. intros H. apply nth_error_Some. congruence. Qed.

(* records *)
Section Fields.
Context {E : Type} (X : ext_ops E) (cfg : config).
Implicit Type st : conn E.

Lemma receive_pong_fields st data :
  let st' := receive_pong st data in
  p_state st' = p_state st /\ p_out st' = p_out st /\ p_messages st' = p_messages st /\
  p_close st' = p_close st /\ p_lost st' = p_lost st /\ p_in st' = p_in st /\ p_now st' = p_now st.
Proof.
  cbv zeta. unfold receive_pong. destruct (has_ping st data);
    [destruct (acknowledge _ _ _)|]; repeat split.
Qed.
Lemma record_frame_fields st f :
  let st' := record_frame st f in
  p_state st' = p_state st /\ p_out st' = p_out st /\ p_messages st' = p_messages st /\
  p_lost st' = p_lost st /\ p_in st' = p_in st ++ [f] /\ p_now st' = p_now st.
Proof.
  cbv zeta. unfold record_frame.
  destruct (f_opcode f); try (repeat split; reflexivity);
    [destruct (parse_close (f_data f)); repeat split|].
  set (st1 := set_in _ st).
  pose proof (receive_pong_fields st1 (f_data f)) as (A1 & A2 & A3 & A4 & A5 & A6 & A7).
  rewrite A1, A2, A3, A5, A6, A7. repeat split.
Qed.
Lemma connection_lost_fields st o c :
  let st' := connection_lost st o c in
  p_state st' = Closed /\ p_out st' = p_out st /\ p_messages st' = p_messages st /\
  p_in st' = p_in st /\ p_now st' = p_now st /\ p_pings st' = p_pings st /\
  p_close st' = Some (match p_close st with Some x => x | None => (1006%Z, []) end).
Proof.
  cbv zeta. unfold connection_lost.
  set (st1 := set_state Closed _).
  set (st2 := match p_close st1 with None => _ | Some _ => _ end).
  assert (C : p_state st2 = Closed /\ p_out st2 = p_out st /\ p_messages st2 = p_messages st /\
    p_in st2 = p_in st /\ p_now st2 = p_now st /\ p_pings st2 = p_pings st /\
    p_close st2 = Some (match p_close st with Some x => x | None => (1006%Z, []) end)).
  { unfold st2. change (p_close st1) with (p_close st). destruct (p_close st) eqn:Ec.
    - change (p_close st1) with (p_close st). rewrite Ec. repeat split.
    - repeat split. }
  clearbody st2. destruct (abort_futs _ _ _) as [futs []]; exact C.
Qed.

(** Frames written and state *)
Definition no_close (l : list sent) : Prop := Forall (fun x => f_opcode (o_frame x) <> CLOSE) l.
Definition Out st : Prop :=
  match p_state st with
  | Connecting => p_out st = []
  | Open => no_close (p_out st)
  | _ => no_close (p_out st) \/
         exists l x, p_out st = l ++ [x] /\ no_close l /\ f_opcode (o_frame x) = CLOSE
  end.

Lemma Out_prim st st' : Out st -> prim cfg True st st' -> Out st'.
Proof.
  intros H P. destruct P; try exact H; unfold Out in *; cbn [p_state p_out set_out set_state set_messages set_pings set_pongs].
  - rewrite H0 in *. apply Forall_app. split; [exact H|]. constructor; [exact H1|constructor].
  - rewrite H0 in H. right. exists (p_out st), x. split; [reflexivity|]. split; assumption.
  - rewrite H0 in H. left. exact H.
  - rewrite H0 in H. rewrite H. constructor.
  - pose proof (connection_lost_fields st o c) as (A1 & A2 & _). rewrite A1, A2.
    destruct (p_state st); [left; rewrite H; constructor|left; exact H|exact H|exact H].
Qed.
Lemma Out_frame st f : Out st -> Out (record_frame st f).
Proof.
  unfold Out. pose proof (record_frame_fields st f) as (A1 & A2 & _). now rewrite A1, A2.
Qed.

Lemma rank_prim n st st' : (n <= rank (p_state st))%nat -> prim cfg True st st' -> (n <= rank (p_state st'))%nat.
Proof.
  intros H P. destruct P; try exact H; cbn [p_state set_out set_state set_messages set_pings set_pongs].
  - rewrite H0 in H. cbn [rank] in *. lia.
  - rewrite H0 in H. cbn [rank] in *. lia.
  - rewrite H0 in H. cbn [rank] in *. lia.
  - pose proof (connection_lost_fields st o c) as (A1 & _). rewrite A1. cbn [rank].
    destruct (p_state st); cbn [rank] in H; lia.
Qed.

(** The queue *)
Definition Queue n st : Prop := lenN (p_messages st) <= n.
Lemma Queue_prim n st st' : c_max_queue cfg = Some n -> Queue n st -> prim cfg True st st' -> Queue n st'.
Proof.
  intros Hn H P. destruct P; try exact H; unfold Queue in *; cbn [p_messages set_messages].
  - unfold room in H0. rewrite Hn in H0. apply N.ltb_lt in H0. unfold lenN in *.
    rewrite app_length. cbn [length]. lia.
  - unfold lenN in *. rewrite H0 in H. cbn [length] in H. lia.
  - pose proof (connection_lost_fields st o c) as (_ & _ & A & _). now rewrite A.
Qed.

(** Pings *)
Definition chronological (l : list nat) : Prop := StronglySorted lt l.

Definition Pings st : Prop :=
  NoDup (map fst (p_pings st)) /\
  chronological (map snd (p_pings st)) /\
  Forall (fun w => (w < length (p_pongs st))%nat) (map snd (p_pings st)) /\
  (p_state st <> Closed -> forall w, pending (p_pongs st) w <-> In w (map snd (p_pings st))) /\
  (p_state st = Closed -> (forall w, ~ pending (p_pongs st) w) /\ p_lost st <> None).

Lemma bytes_eqb_eq' x y : bytes_eqb x y = true <-> x = y.
Proof. apply bytes_eqb_eq. Qed.

Lemma has_ping_In st data : has_ping st data = true <-> In data (map fst (p_pings st)).
Proof.
  unfold has_ping. rewrite existsb_exists. rewrite in_map_iff. split.
  - intros ([d w] & H & E0). apply bytes_eqb_eq' in E0. cbn [fst] in E0. exists (d, w). auto.
  - intros ([d w] & E0 & H). exists (d, w). split; [assumption|]. now apply bytes_eqb_eq'.
Qed.
Lemma has_ping_not st data : has_ping st data = false <-> ~ In data (map fst (p_pings st)).
Proof.
  rewrite <- has_ping_In. destruct (has_ping st data); split; congruence.
Qed.

Lemma NoDup_snoc {A} (l : list A) x : NoDup l -> ~ In x l -> NoDup (l ++ [x]).
Proof.
  intros H N. induction H as [|a l Ha H IH]; cbn [app]; [constructor; [intros []|constructor]|].
  constructor.
  - rewrite in_app_iff. cbn [In]. intros [?|[<-|[]]]; [contradiction|]. apply N. now left.
  - apply IH. intros I0. apply N. now right.
Qed.

(* acknowledge, in words *)
Lemma acknowledge_spec data before w after futs :
  ~ In data (map fst before) ->
  exists futs', acknowledge data (before ++ (data, w) :: after) futs = (after, futs') /\
  length futs' = length futs /\
  forall w', nth_error futs' w' =
    match nth_error futs w' with
    | Some FPending => if existsb (Nat.eqb w') (map snd before ++ [w]) then Some FResult else Some FPending
    | r => r
    end.
Proof.
  revert futs. induction before as [|[d0 w0] before IH]; intros futs N; cbn [app acknowledge].
  - replace (bytes_eqb data data) with true by (symmetry; now apply bytes_eqb_eq').
    set (futs' := if fut_done (get_fut futs w) then futs else replace w FResult futs).
    exists futs'. split; [reflexivity|]. split; [unfold futs'; destruct (fut_done _); [reflexivity|apply length_replace]|].
    intros w'. cbn [map app existsb]. rewrite orb_false_r.
    unfold futs'. destruct (fut_done (get_fut futs w)) eqn:D.
    + destruct (nth_error futs w') as [[]|] eqn:Ew; try reflexivity.
      destruct (Nat.eqb_spec w' w) as [E0|?]; [|reflexivity]. subst w'.
      apply get_fut_nth in Ew. rewrite Ew in D. discriminate.
    + destruct (Nat.eqb_spec w' w) as [E0|?].
      * subst w'. destruct (nth_error futs w) as [f|] eqn:Ew.
        -- rewrite nth_error_replace_eq by (eapply pending_lt; eassumption).
           apply get_fut_nth in Ew. rewrite Ew in D. destruct f; try discriminate. reflexivity.
        -- apply nth_error_None in Ew. apply nth_error_None. rewrite length_replace. exact Ew.
      * rewrite nth_error_replace_neq by congruence. destruct (nth_error futs w') as [[]|]; reflexivity.
  - destruct (bytes_eqb d0 data) eqn:E0.
    { apply bytes_eqb_eq' in E0. cbn [map fst In] in N. tauto. }
    set (futs1 := if fut_done (get_fut futs w0) then futs else replace w0 FResult futs).
    destruct (IH futs1) as (futs' & -> & L & S1); [cbn [map fst In] in N; tauto|].
    exists futs'. split; [reflexivity|].
    split; [rewrite L; unfold futs1; destruct (fut_done _); [reflexivity|apply length_replace]|].
    intros w'. rewrite S1. cbn [map snd app existsb].
    unfold futs1. destruct (fut_done (get_fut futs w0)) eqn:D.
    + destruct (nth_error futs w') as [[]|] eqn:Ew; try reflexivity.
      destruct (Nat.eqb_spec w' w0) as [E1|?]; [|reflexivity]. subst w'.
      apply get_fut_nth in Ew. rewrite Ew in D. discriminate.
    + destruct (Nat.eqb_spec w' w0) as [E1|?].
      * subst w'. destruct (nth_error futs w0) as [f|] eqn:Ew.
        -- rewrite nth_error_replace_eq by (eapply pending_lt; eassumption).
           apply get_fut_nth in Ew. rewrite Ew in D. destruct f; try discriminate. reflexivity.
        -- replace (nth_error (replace w0 FResult futs) w0) with (@None fut); [reflexivity|].
           symmetry. apply nth_error_None. rewrite length_replace. now apply nth_error_None.
      * rewrite nth_error_replace_neq by congruence. reflexivity.
Qed.

Lemma has_ping_split st data :
  has_ping st data = true ->
  exists before w after, p_pings st = before ++ (data, w) :: after /\ ~ In data (map fst before).
Proof.
  intros H. apply has_ping_In in H.
  induction (p_pings st) as [|[d w] l IH]; [destruct H|].
  destruct (bytes_eqb d data) eqn:E0.
  - apply bytes_eqb_eq' in E0. subst d. exists [], w, l. split; [reflexivity|]. intros [].
  - destruct H as [H|H]; [cbn [fst] in H; subst d; rewrite (proj2 (bytes_eqb_eq' data data) eq_refl) in E0; discriminate|].
    destruct (IH H) as (before & w' & after & -> & N).
    exists ((d, w) :: before), w', after. split; [reflexivity|].
    cbn [map fst]. intros [E1|?]; [|tauto]. subst d.
    rewrite (proj2 (bytes_eqb_eq' data data) eq_refl) in E0. discriminate.
Qed.

Lemma StronglySorted_app_inv {A} (R : A -> A -> Prop) l1 l2 :
  StronglySorted R (l1 ++ l2) ->
  StronglySorted R l1 /\ StronglySorted R l2 /\ (forall x y, In x l1 -> In y l2 -> R x y).
Proof.
  induction l1 as [|a l1 IH]; cbn [app]; intros H.
  - split; [constructor|]. split; [exact H|]. intros x y [].
  - apply StronglySorted_inv in H as [H1 H2]. destruct (IH H1) as (A1 & A2 & A3).
    split; [constructor; [exact A1|]; rewrite Forall_app in H2; tauto|]. split; [exact A2|].
    intros x y [->|Hx] Hy; [|now apply A3]. rewrite Forall_forall in H2. apply H2, in_or_app. now right.
Qed.
Lemma StronglySorted_snoc l (x : nat) :
  StronglySorted lt l -> Forall (fun w => (w < x)%nat) l -> StronglySorted lt (l ++ [x]).
Proof.
  intros H F. induction H as [|a l H IH Ha]; cbn [app]; [repeat constructor|].
  inversion F as [|? ? F1 F2]; subst. constructor; [now apply IH|].
  apply Forall_app. split; [exact Ha|]. constructor; [assumption|constructor].
Qed.
Lemma sorted_NoDup l : StronglySorted lt l -> NoDup l.
Proof.
  induction 1 as [|a l H IH Ha]; constructor; [|exact IH]. intros I0.
  rewrite Forall_forall in Ha. apply Ha in I0. lia.
Qed.

Lemma existsb_eqb_In w l : existsb (Nat.eqb w) l = true <-> In w l.
Proof.
  rewrite existsb_exists. split.
  - intros (x & H & E0). apply Nat.eqb_eq in E0. now subst.
  - intros H. exists w. split; [exact H|apply Nat.eqb_refl].
Qed.

Lemma NoDup_map_app_inv {A B} (f : A -> B) (l1 l2 : list A) :
  NoDup (map f (l1 ++ l2)) -> NoDup (map f l2).
Proof.
  rewrite map_app. induction l1 as [|a l1 IH]; cbn [map app]; [auto|].
  intros H. inversion H; subst. now apply IH.
Qed.

Lemma Pings_pong st data : Pings st -> Pings (receive_pong st data).
Proof.
  intros (P1 & P2 & P3 & P4 & P5). unfold receive_pong.
  destruct (has_ping st data) eqn:Hp; [|repeat (split; [assumption|]); assumption].
  destruct (has_ping_split st data Hp) as (before & w & after & Es & N).
  rewrite Es. destruct (acknowledge_spec data before w after (p_pongs st) N) as (futs' & -> & L & S1).
  unfold Pings. cbn [p_pings p_pongs p_state p_lost set_pings set_pongs].
  assert (Es' : p_pings st = (before ++ [(data, w)]) ++ after) by (rewrite <- app_assoc; exact Es).
  rewrite Es' in P1, P2, P3, P4. rewrite map_app in P2, P3, P4.
  apply StronglySorted_app_inv in P2 as (Q1 & Q2 & Q3).
  assert (Eb : map snd (before ++ [(data, w)]) = map snd before ++ [w])
    by (rewrite map_app; reflexivity).
  assert (Pn : forall w', pending futs' w' <-> pending (p_pongs st) w' /\ ~ In w' (map snd before ++ [w])).
  { intros w'. unfold pending. rewrite S1.
    destruct (nth_error (p_pongs st) w') as [[]|]; try (split; [discriminate|intros [? ?]; discriminate]).
    rewrite <- existsb_eqb_In. destruct (existsb _ _).
    - split; [discriminate|]. intros [_ H]. congruence.
    - split; [|reflexivity]. intros _. split; [reflexivity|discriminate]. }
  split; [now apply NoDup_map_app_inv in P1|]. split; [exact Q2|].
  split; [rewrite L; rewrite Forall_app in P3; tauto|]. split.
  - intros HC w'. rewrite Pn, (P4 HC w'), <- Eb, in_app_iff. split; [tauto|].
    intros I0. split; [tauto|]. intros I1. specialize (Q3 _ _ I1 I0). lia.
  - intros HC. destruct (P5 HC) as [P6 P7]. split; [|exact P7]. intros w' H. apply Pn in H as [H _].
    exact (P6 w' H).
Qed.

Lemma abort_futs_spec e pings futs :
  NoDup (map snd pings) -> Forall (pending futs) (map snd pings) ->
  exists futs', abort_futs e pings futs = (futs', true) /\ length futs' = length futs /\
  forall w, nth_error futs' w = if existsb (Nat.eqb w) (map snd pings) then Some (FExn e)
                                else nth_error futs w.
Proof.
  revert futs. induction pings as [|[d w0] pings IH]; cbn [abort_futs map snd]; intros futs ND F.
  - exists futs. repeat split.
  - inversion ND as [|? ? N1 N2]; subst. inversion F as [|? ? F1 F2]; subst.
    rewrite (get_fut_pending _ _ F1). cbn [fut_done].
    destruct (IH (replace w0 (FExn e) futs)) as (futs' & -> & L & S1); [exact N2| |].
    + apply Forall_forall. intros w Hw. unfold pending. rewrite nth_error_replace_neq.
      * rewrite Forall_forall in F2. now apply F2.
      * intros ->. contradiction.
    + exists futs'. split; [reflexivity|]. split; [rewrite L; apply length_replace|].
      intros w. rewrite S1. cbn [existsb]. destruct (Nat.eqb_spec w w0) as [E0|?]; cbn [orb].
      * subst w0. destruct (existsb _ _) eqn:Ex; [reflexivity|].
        apply nth_error_replace_eq. eapply pending_lt, F1.
      * destruct (existsb _ _); [reflexivity|]. apply nth_error_replace_neq. congruence.
Qed.

(* connection_lost, when the pings are consistent *)
Lemma connection_lost_spec st o c :
  Pings st -> p_state st <> Closed ->
  exists futs code reason,
    p_close (connection_lost st o c) = Some (code, reason) /\
    (code, reason) = match p_close st with Some x => x | None => (1006%Z, []) end /\
    p_lost (connection_lost st o c) = Some o /\
    p_pongs (connection_lost st o c) = futs /\ length futs = length (p_pongs st) /\
    forall w, nth_error futs w =
      match nth_error (p_pongs st) w with
      | Some FPending => Some (FExn (connection_closed_exc (connection_lost st o c)))
      | r => r
      end.
Proof.
  intros (P1 & P2 & P3 & P4 & P5) HC. unfold connection_lost.
  set (st1 := set_state Closed _).
  set (st2 := match p_close st1 with None => _ | Some _ => _ end).
  assert (C : p_pings st2 = p_pings st /\ p_pongs st2 = p_pongs st /\
    p_close st2 = Some (match p_close st with Some x => x | None => (1006%Z, []) end)).
  { unfold st2. change (p_close st1) with (p_close st). destruct (p_close st) eqn:Ec.
    - change (p_close st1) with (p_close st). rewrite Ec. repeat split.
    - repeat split. }
  destruct C as (C1 & C2 & C3). clearbody st2. rewrite C1, C2.
  destruct (match p_close st with Some x => x | None => (1006%Z, []) end) as [code reason].
  destruct (abort_futs_spec (connection_closed_exc st2) (p_pings st) (p_pongs st))
    as (futs' & -> & L & S1).
  { now apply sorted_NoDup. }
  { apply Forall_forall. intros w Hw. now apply (P4 HC). }
  exists futs', code, reason. cbn [p_close p_lost p_pongs set_reader set_lost set_pongs].
  split; [exact C3|]. split; [reflexivity|]. split; [reflexivity|]. split; [reflexivity|].
  split; [exact L|].
  intros w. rewrite S1. destruct (existsb _ _) eqn:Ex.
  - apply existsb_eqb_In in Ex. apply (P4 HC) in Ex. unfold pending in Ex. rewrite Ex. reflexivity.
  - destruct (nth_error (p_pongs st) w) as [[]|] eqn:Ew; try reflexivity.
    exfalso. apply (P4 HC) in Ew. apply existsb_eqb_In in Ew. congruence.
Qed.

Lemma Pings_prim st st' : Pings st -> prim cfg True st st' -> Pings st'.
Proof.
  intros H P. destruct P; try exact H; destruct H as (P1 & P2 & P3 & P4 & P5).
  - split; [exact P1|]. split; [exact P2|]. split; [exact P3|]. split; [|discriminate].
    intros _. apply P4. congruence.
  - split; [exact P1|]. split; [exact P2|]. split; [exact P3|]. split; [|discriminate].
    intros _. apply P4. congruence.
  - split; [exact P1|]. split; [exact P2|]. split; [exact P3|]. split; [|discriminate].
    intros _. apply P4. congruence.
  - unfold Pings. cbn [p_pings p_pongs p_state p_lost set_pings set_pongs].
    rewrite !map_app. cbn [map fst snd].
    split; [|split; [|split; [|split]]].
    + apply has_ping_not in H0. now apply NoDup_snoc.
    + now apply StronglySorted_snoc.
    + rewrite app_length. cbn [length]. apply Forall_app. split.
      * eapply Forall_impl; [|exact P3]. cbv beta. intros; lia.
      * constructor; [lia|constructor].
    + intros HC w. specialize (P4 HC w). rewrite in_app_iff, <- P4. unfold pending.
      destruct (Nat.lt_ge_cases w (length (p_pongs st))) as [Lt|Ge].
      * rewrite nth_error_app1 by exact Lt. cbn [In]. split; [tauto|]. intros [?|[<-|[]]]; [assumption|lia].
      * rewrite nth_error_app2 by exact Ge. cbn [In].
        assert (nth_error (p_pongs st) w <> Some FPending)
          by (intros Q; apply pending_lt in Q; lia).
        destruct (w - length (p_pongs st))%nat as [|k] eqn:Ek; cbn [nth_error].
        -- split; [intros _; right; left; lia|reflexivity].
        -- destruct k; cbn [nth_error]; (split; [discriminate|intros [?|[?|[]]]; [contradiction|lia]]).
    + congruence.
  - assert (HP : Pings st) by (split; [|split; [|split; [|split]]]; assumption).
    destruct (connection_lost_spec st o c HP H0) as (futs & code & reason & _ & _ & A1 & A2 & A3 & A4).
    pose proof (connection_lost_fields st o c) as (B1 & _ & _ & _ & _ & B2 & _).
    unfold Pings. rewrite A1, A2, B1, B2. split; [exact P1|]. split; [exact P2|].
    split; [now rewrite A3|]. split; [congruence|]. intros _. split; [|discriminate].
    intros w Q. unfold pending in Q. rewrite A4 in Q.
    destruct (nth_error (p_pongs st) w) as [[]|]; discriminate.
Qed.
Lemma Pings_frame st f : Pings st -> Pings (record_frame st f).
Proof.
  intros H. unfold record_frame. destruct (f_opcode f); try exact H.
  - destruct (parse_close (f_data f)); exact H.
  - now apply Pings_pong.
Qed.
Lemma Pings_initial exts : Pings (initial exts).
Proof.
  split; [constructor|]. split; [constructor|]. split; [constructor|]. split; [|discriminate].
  intros _ w. split; [|intros []]. intros H. now destruct w.
Qed.
End Fields.
