(* Invariants of flow control. *)
From Verif Require Import Base.Prelude Base.PreludeFacts Model.LegacyProtocol Model.LegacyDrain Spec.AsyncioFlow
  Proofs.LegacyFields.
Local Open Scope N_scope.

Implicit Type d : drain.

Lemma nth_replace {A} i (x : A) l j y : nth_error (replace i x l) j = Some y ->
  (i = j /\ y = x /\ exists z, nth_error l j = Some z) \/ (i <> j /\ nth_error l j = Some y).
Proof.
  intros H. assert (L : (j < length l)%nat) by (rewrite <- (length_replace i x); apply nth_error_Some; congruence).
  destruct (Nat.eq_dec i j) as [<- |N].
  - left. rewrite nth_error_replace_eq in H by exact L. injection H as <-. split; [reflexivity|]. split; [reflexivity|].
    apply nth_error_Some in L. destruct (nth_error l i); [eauto|contradiction].
  - right. split; [exact N|]. now rewrite nth_error_replace_neq in H by exact N.
Qed.
Lemma get_fut_app futs x w : (w < length futs)%nat -> get_fut (futs ++ [x]) w = get_fut futs w.
Proof. intros L. unfold get_fut. now apply app_nth1. Qed.
Lemma get_fut_new futs x : get_fut (futs ++ [x]) (length futs) = x.
Proof. unfold get_fut. rewrite app_nth2, Nat.sub_diag by lia. reflexivity. Qed.
Lemma get_fut_replace_eq futs w x : (w < length futs)%nat -> get_fut (replace w x futs) w = x.
Proof. intros L. unfold get_fut. apply nth_error_nth. now apply nth_error_replace_eq. Qed.
Lemma get_fut_replace_neq futs w w' x : w <> w' -> get_fut (replace w x futs) w' = get_fut futs w'.
Proof.
  intros N. unfold get_fut. destruct (nth_error futs w') as [y|] eqn:Q.
  - rewrite (nth_error_nth _ _ _ Q). apply nth_error_nth. now rewrite nth_error_replace_neq.
  - rewrite (nth_overflow futs) by now apply nth_error_None.
    apply nth_overflow. rewrite length_replace. now apply nth_error_None.
Qed.

Definition holds (pc : dpc) : Prop := pc = DYield \/ exists w, pc = DWait w.
(* why writing a frame raises an exception *)
Definition reason (ls : list dlabel) d (i : nat) (e : pexn) : Prop :=
  (e = CancelledError /\ In (DCancel i) ls) \/
  exists exc, d_lost d = Some exc /\ (e = OsError ConnectionErr \/ exists o, exc = Some o /\ e = OsError o).

Record DInv (ls : list dlabel) d : Prop := {
  inv_holder : forall i, d_holder d = Some i <-> exists pc c, nth_error (d_tasks d) i = Some (pc, c) /\ holds pc;
  inv_wait : forall i w c, nth_error (d_tasks d) i = Some (DWait w, c) ->
    (w < length (d_futs d))%nat /\
    (get_fut (d_futs d) w = FPending -> d_waiter d = Some w /\ d_paused d = true /\ d_lost d = None /\ c = false) /\
    (forall e, get_fut (d_futs d) w = FExn e -> reason ls d i e /\ (e = CancelledError -> c = true));
  inv_waiter : forall w, d_waiter d = Some w -> (w < length (d_futs d))%nat /\
    (fut_cancelled (get_fut (d_futs d) w) = true \/
     (get_fut (d_futs d) w = FPending /\ exists i c, nth_error (d_tasks d) i = Some (DWait w, c)));
  inv_raised : forall i e c, nth_error (d_tasks d) i = Some (DRaised e, c) -> reason ls d i e;
  inv_cancel : forall i pc, nth_error (d_tasks d) i = Some (pc, true) -> In (DCancel i) ls }.

Lemma reason_app ls l d d' i e : (d_lost d <> None -> d_lost d' = d_lost d) -> reason ls d i e -> reason (ls ++ [l]) d' i e.
Proof.
  intros L [[-> Q]|(exc & Q1 & Q2)]; [left; split; [reflexivity|]; apply in_app_iff; now left|right].
  exists exc. split; [rewrite L; [exact Q1|congruence]|exact Q2].
Qed.

(* Steps that only change the i-th task *)
Lemma DInv_task ls l d i pc0 c0 pc c holder :
  DInv ls d -> nth_error (d_tasks d) i = Some (pc0, c0) ->
  (holds pc -> holder = Some i /\ (d_holder d = None \/ d_holder d = Some i)) ->
  (~ holds pc -> holder = if match d_holder d with Some j => Nat.eqb i j | None => false end then None else d_holder d) ->
  (forall w, pc = DWait w -> pc0 = DWait w /\ c = c0) ->
  (forall w, pc0 = DWait w -> pc = DWait w \/ get_fut (d_futs d) w <> FPending) ->
  (forall e, pc = DRaised e -> reason (ls ++ [l]) d i e) ->
  (c = true -> In (DCancel i) (ls ++ [l])) ->
  DInv (ls ++ [l]) (Drain (d_paused d) (d_lost d) (d_closing d) (d_waiter d) (d_futs d) holder (replace i (pc, c) (d_tasks d))).
Proof.
  intros [I1 I2 I3 I4 I5] Hi H1 H2 H3 H4 H5 H6.
  assert (L : (i < length (d_tasks d))%nat) by (apply nth_error_Some; congruence).
  assert (Ni : nth_error (replace i (pc, c) (d_tasks d)) i = Some (pc, c)) by now apply nth_error_replace_eq.
  assert (Dh : holds pc \/ ~ holds pc).
  { destruct pc; [right| right|left; now left|left; right; eauto|right]; intros [Q|(w & Q)]; discriminate. }
  constructor; cbn [d_paused d_lost d_closing d_waiter d_futs d_holder d_tasks].
  - intros j. destruct Dh as [Dh|Dh].
    + destruct (H1 Dh) as [-> Hh]. split.
      * intros Q. injection Q as <-. eauto.
      * intros (pc' & c' & Hj & Hp). destruct (nth_replace _ _ _ _ _ Hj) as [(<- & _)|(N & Hj')]; [reflexivity|exfalso].
        assert (Q : d_holder d = Some j) by (apply I1; eauto). destruct Hh as [Hh|Hh]; congruence.
    + rewrite (H2 Dh). split.
      * intros Q. destruct (d_holder d) as [k|] eqn:Eh; [|discriminate]. destruct (Nat.eqb_spec i k) as [-> |N]; [discriminate|].
        injection Q as ->. destruct (proj1 (I1 j) eq_refl) as (pc' & c' & Hj & Hp). exists pc', c'.
        split; [rewrite nth_error_replace_neq by exact N; exact Hj|exact Hp].
      * intros (pc' & c' & Hj & Hp). destruct (nth_replace _ _ _ _ _ Hj) as [(<- & Q & _)|(N & Hj')].
        -- injection Q as -> ->. contradiction.
        -- assert (Q : d_holder d = Some j) by (apply I1; eauto). rewrite Q. destruct (Nat.eqb_spec i j); [contradiction|reflexivity].
  - intros j w c' Hj. destruct (nth_replace _ _ _ _ _ Hj) as [(<- & Q & _)|(N & Hj')].
    + injection Q as Q1 Q2. destruct (H3 w) as [Q3 Q4]; [now symmetry|]. subst pc0. destruct (I2 i w c0 Hi) as (W1 & W2 & W3).
      subst c'. rewrite Q4. split; [exact W1|]. split; [exact W2|]. intros e He. destruct (W3 e He) as [W4 W5].
      split; [revert W4; now apply reason_app|exact W5].
    + destruct (I2 j w c' Hj') as (W1 & W2 & W3). split; [exact W1|]. split; [exact W2|]. intros e He.
      destruct (W3 e He) as [W4 W5]. split; [revert W4; now apply reason_app|exact W5].
  - intros w Hw. destruct (I3 w Hw) as (W1 & [W2|(W2 & j & c' & W3)]); (split; [exact W1|]); [now left|right].
    split; [exact W2|]. destruct (Nat.eq_dec i j) as [<- |N].
    + rewrite Hi in W3. injection W3 as -> ->. destruct (H4 w eq_refl) as [-> |Q]; [eauto|contradiction].
    + exists j, c'. now rewrite nth_error_replace_neq by exact N.
  - intros j e c' Hj. destruct (nth_replace _ _ _ _ _ Hj) as [(<- & Q & _)|(N & Hj')].
    + injection Q as Q _. apply H5. now symmetry.
    + generalize (I4 j e c' Hj'). now apply reason_app.
  - intros j pc' Hj. destruct (nth_replace _ _ _ _ _ Hj) as [(<- & Q & _)|(N & Hj')].
    + injection Q as _ Q. auto.
    + apply in_app_iff. left. eauto.
Qed.

(* _drain_helper *)
Lemma helper_inv ls l d i pc0 : DInv ls d -> nth_error (d_tasks d) i = Some (pc0, false) ->
  (pc0 = DLock /\ d_holder d = None) \/ pc0 = DYield -> DInv (ls ++ [l]) (drain_helper d i).
Proof.
  intros I Hi Hp.
  assert (Hold : d_holder d = None \/ d_holder d = Some i).
  { destruct Hp as [[_ Q]| ->]; [now left|right]. apply I. exists DYield, false. split; [exact Hi|now left]. }
  assert (Hr : forall pc, ~ holds pc -> None = if match d_holder d with Some j => Nat.eqb i j | None => false end then None else d_holder d).
  { intros pc _. destruct Hold as [-> | ->]; [reflexivity|now rewrite Nat.eqb_refl]. }
  assert (Nw : forall w, pc0 <> DWait w) by (intros w ->; destruct Hp as [[Q _]|Q]; discriminate).
  assert (N1 : forall pc, (pc = DIdle \/ exists e, pc = DRaised e) -> ~ holds pc).
  { intros pc [-> |(e & ->)] [Q|(w & Q)]; discriminate. }
  unfold drain_helper. destruct (d_lost d) as [exc|] eqn:El.
  - unfold at_task. apply (DInv_task ls l d i pc0 false); try assumption.
    + intros Q. exfalso. revert Q. apply N1. eauto.
    + apply Hr.
    + discriminate.
    + intros w ->. now contradiction (Nw w).
    + intros e Q. injection Q as <-. right. exists exc. split; [exact El|now left].
    + discriminate.
  - destruct (d_paused d) eqn:Epa; cbn [negb].
    + destruct (match d_waiter d with None => true | Some w => fut_cancelled (get_fut (d_futs d) w) end) eqn:Ef.
      * (* wait *)
        destruct I as [I1 I2 I3 I4 I5]. unfold at_task, with_futs.
        assert (L : (i < length (d_tasks d))%nat) by (apply nth_error_Some; congruence).
        constructor; cbn [d_paused d_lost d_closing d_waiter d_futs d_holder d_tasks].
        -- intros j. split.
           ++ intros Q. injection Q as <-. exists (DWait (length (d_futs d))), false. split; [now apply nth_error_replace_eq|right; eauto].
           ++ intros (pc' & c' & Hj & Hq). destruct (nth_replace _ _ _ _ _ Hj) as [(<- & _)|(N & Hj')]; [reflexivity|exfalso].
              assert (Q : d_holder d = Some j) by (apply I1; eauto). destruct Hold; congruence.
        -- intros j w c' Hj. rewrite app_length. cbn [length]. destruct (nth_replace _ _ _ _ _ Hj) as [(<- & Q & _)|(N & Hj')].
           ++ injection Q as -> ->. rewrite get_fut_new. split; [lia|]. split; [auto|discriminate].
           ++ exfalso. assert (Q : d_holder d = Some j) by (apply I1; exists (DWait w), c'; split; [exact Hj'|right; eauto]).
              destruct Hold; congruence.
        -- intros w Q. injection Q as <-. rewrite app_length. cbn [length]. split; [lia|]. right. rewrite get_fut_new.
           split; [reflexivity|]. exists i, false. now apply nth_error_replace_eq.
        -- intros j e c' Hj. destruct (nth_replace _ _ _ _ _ Hj) as [(<- & Q & _)|(N & Hj')]; [discriminate|].
           generalize (I4 j e c' Hj'). apply reason_app. congruence.
        -- intros j pc' Hj. destruct (nth_replace _ _ _ _ _ Hj) as [(<- & Q & _)|(N & Hj')]; [discriminate|].
           apply in_app_iff. left. eauto.
      * (* the assertion holds *)
        exfalso. destruct (d_waiter d) as [w|] eqn:Ew; [|discriminate].
        destruct (inv_waiter _ _ I w Ew) as (_ & [Q|(_ & j & c' & Hj)]); [congruence|].
        assert (Q : d_holder d = Some j) by (apply I; exists (DWait w), c'; split; [exact Hj|right; eauto]).
        destruct Hold as [Hold|Hold]; [congruence|]. rewrite Hold in Q. injection Q as <-. rewrite Hi in Hj. injection Hj as -> _.
        now contradiction (Nw w).
    + unfold at_task. apply (DInv_task ls l d i pc0 false); try assumption.
      * intros Q. exfalso. revert Q. apply N1. now left.
      * apply Hr.
      * discriminate.
      * intros w ->. now contradiction (Nw w).
      * discriminate.
      * discriminate.
Qed.

Lemma run_inv ls d i d' : DInv ls d -> run_task d i = Some d' -> DInv (ls ++ [DRun i]) d'.
Proof.
  intros I H. unfold run_task in H. destruct (nth_error (d_tasks d) i) as [[pc0 c0]|] eqn:Hi; [|discriminate].
  assert (N1 : forall pc, (pc = DIdle \/ exists e, pc = DRaised e) -> ~ holds pc).
  { intros pc [-> |(e & ->)] [Q|(w & Q)]; discriminate. }
  assert (Hh : holds pc0 -> d_holder d = Some i) by (intros Q; apply I; eauto).
  assert (Cn : c0 = true -> reason (ls ++ [DRun i]) d i CancelledError).
  { intros ->. left. split; [reflexivity|]. apply in_app_iff. left. exact (inv_cancel _ _ I i pc0 Hi). }
  assert (Rel : holds pc0 -> forall pc, (pc = DIdle \/ exists e, pc = DRaised e) ->
    (forall e, pc = DRaised e -> reason (ls ++ [DRun i]) d i e) ->
    (forall w, pc0 = DWait w -> get_fut (d_futs d) w <> FPending) -> DInv (ls ++ [DRun i]) (at_task d i pc None)).
  { intros Q pc Hpc Hr Hw. unfold at_task. apply (DInv_task ls (DRun i) d i pc0 c0); try assumption.
    - intros Q'. exfalso. revert Q'. now apply N1.
    - intros _. rewrite (Hh Q). now rewrite Nat.eqb_refl.
    - intros w ->. exfalso. destruct Hpc as [Q'|(e & Q')]; discriminate.
    - intros w Q'. right. now apply Hw.
    - discriminate. }
  destruct pc0 as [| | |w|e]; try discriminate.
  - destruct c0.
    + apply some_inj in H as <-. unfold at_task. apply (DInv_task ls (DRun i) d i DLock true); try assumption.
      * intros Q. exfalso. revert Q. apply N1. eauto.
      * intros _. destruct (d_holder d) as [j|] eqn:Eh; [|reflexivity]. destruct (Nat.eqb_spec i j) as [<- |]; [|reflexivity].
        exfalso. destruct (proj1 (inv_holder _ _ I i) Eh) as (pc & c & Hj & Hp). rewrite Hi in Hj. injection Hj as <- _.
        destruct Hp as [Q|(w & Q)]; discriminate.
      * discriminate.
      * discriminate.
      * intros e Q. injection Q as <-. auto.
      * discriminate.
    + destruct (d_holder d) as [|] eqn:Eh; [discriminate|]. apply some_inj in H as <-. unfold drain_start.
      assert (Hp : DInv (ls ++ [DRun i]) (if d_closing d then at_task d i DYield (Some i) else drain_helper d i)).
      { destruct (d_closing d) eqn:Ec.
        - unfold at_task. apply (DInv_task ls (DRun i) d i DLock false); try assumption; try discriminate.
          + intros _. rewrite Eh. auto.
          + intros Q. exfalso. apply Q. now left.
        - apply (helper_inv ls (DRun i) d i DLock); auto. }
      destruct (d_lost d) as [[o|]|] eqn:El; try exact Hp.
      unfold at_task. apply (DInv_task ls (DRun i) d i DLock false); try assumption; try discriminate.
      * intros Q. exfalso. revert Q. apply N1. eauto.
      * intros _. now rewrite Eh.
      * intros e Q. injection Q as <-. right. exists (Some o). split; [exact El|right; eauto].
  - destruct c0; apply some_inj in H as <-.
    + apply Rel; [now left|right; eauto| |discriminate]. intros e Q. injection Q as <-. auto.
    + apply (helper_inv ls (DRun i) d i DYield); auto.
  - destruct (inv_wait _ _ I i w c0 Hi) as (W1 & W2 & W3).
    assert (Hw : holds (DWait w)) by (right; eauto). destruct c0.
    + apply some_inj in H as <-. apply (Rel Hw); [right; eauto| |].
      * intros e Q. injection Q as <-. auto.
      * intros w' Q Q'. injection Q as <-. destruct (W2 Q') as (_ & _ & _ & Q). discriminate.
    + destruct (get_fut (d_futs d) w) as [| |e] eqn:Ef; try discriminate; apply some_inj in H as <-; apply (Rel Hw).
      * now left.
      * discriminate.
      * intros w' Q. injection Q as <-. congruence.
      * eauto.
      * intros e' Q. injection Q as <-. destruct (W3 e eq_refl) as [Q _]. revert Q. now apply reason_app.
      * intros w' Q. injection Q as <-. congruence.
Qed.

Lemma cancel_inv ls d i d' : DInv ls d -> cancel_task d i = Some d' -> DInv (ls ++ [DCancel i]) d'.
Proof.
  intros I H. unfold cancel_task in H. destruct (nth_error (d_tasks d) i) as [[pc0 c0]|] eqn:Hi; [|discriminate].
  assert (Ic : In (DCancel i) (ls ++ [DCancel i])) by (apply in_app_iff; right; now left).
  destruct pc0 as [| | |w|e]; try discriminate; apply some_inj in H as <-.
  - apply (DInv_task ls (DCancel i) d i DLock c0); try assumption; try discriminate.
    + intros [Q|(w & Q)]; discriminate.
    + intros N. destruct (d_holder d) as [j|] eqn:Eh; [|reflexivity]. destruct (Nat.eqb_spec i j) as [<- |]; [|reflexivity].
      exfalso. destruct (proj1 (inv_holder _ _ I i) Eh) as (pc & c & Hj & Hp). rewrite Hi in Hj. injection Hj as <- _. contradiction.
    + auto.
  - assert (Hh : d_holder d = Some i) by (apply I; exists DYield, c0; split; [exact Hi|now left]).
    apply (DInv_task ls (DCancel i) d i DYield c0); try assumption; try discriminate.
    + auto.
    + intros N. exfalso. apply N. now left.
    + auto.
  - assert (Hh : d_holder d = Some i) by (apply I; exists (DWait w), c0; split; [exact Hi|right; eauto]).
    destruct (inv_wait _ _ I i w c0 Hi) as (W1 & W2 & W3).
    assert (L : (i < length (d_tasks d))%nat) by (apply nth_error_Some; congruence).
    assert (Only : forall j pc c, nth_error (d_tasks d) j = Some (pc, c) -> holds pc -> j = i).
    { intros j pc c Hj Hp. assert (Q : d_holder d = Some j) by (apply I; eauto). congruence. }
    set (futs := match get_fut (d_futs d) w with FPending => replace w (FExn CancelledError) (d_futs d) | _ => d_futs d end).
    assert (Lf : length futs = length (d_futs d)) by (unfold futs; destruct (get_fut _ _); [apply length_replace|reflexivity..]).
    assert (Np : get_fut futs w <> FPending).
    { unfold futs. destruct (get_fut (d_futs d) w) eqn:Q; [|congruence..]. now rewrite get_fut_replace_eq. }
    assert (Ex : forall e, get_fut futs w = FExn e -> reason (ls ++ [DCancel i]) d i e).
    { intros e. unfold futs. destruct (get_fut (d_futs d) w) as [| |e'] eqn:Q.
      - rewrite get_fut_replace_eq by exact W1. intros Q'. injection Q' as <-. left. now split.
      - congruence.
      - rewrite Q. intros Q'. injection Q' as <-. destruct (W3 e' eq_refl) as [R _]. revert R. now apply reason_app. }
    destruct I as [I1 I2 I3 I4 I5]. constructor; cbn [d_paused d_lost d_closing d_waiter d_futs d_holder d_tasks].
    + intros j. rewrite Hh. split.
      * intros Q. injection Q as <-. exists (DWait w), true. split; [now apply nth_error_replace_eq|right; eauto].
      * intros (pc' & c' & Hj & Hp). destruct (nth_replace _ _ _ _ _ Hj) as [(<- & _)|(N & Hj')]; [reflexivity|].
        now rewrite (Only j pc' c' Hj' Hp).
    + intros j w' c' Hj. rewrite Lf. destruct (nth_replace _ _ _ _ _ Hj) as [(<- & Q & _)|(N & Hj')].
      * injection Q as -> ->. split; [exact W1|]. split; [intros Q; contradiction|]. intros e He. split; [now apply Ex|auto].
      * exfalso. apply N. symmetry. apply (Only j _ _ Hj'). right. eauto.
    + intros w' Hw. destruct (I3 w' Hw) as (V1 & V2). rewrite Lf. split; [exact V1|]. left.
      destruct (Nat.eq_dec w w') as [<- |N].
      * unfold futs. destruct V2 as [V2|(V2 & _)].
        -- destruct (get_fut (d_futs d) w) eqn:Q; [discriminate|discriminate|]. now rewrite Q.
        -- rewrite V2. now rewrite get_fut_replace_eq.
      * destruct V2 as [V2|(V2 & j & c & Hj)].
        -- unfold futs. destruct (get_fut (d_futs d) w); [rewrite get_fut_replace_neq by exact N|..]; exact V2.
        -- exfalso. pose proof (Only j _ _ Hj (or_intror (ex_intro _ w' eq_refl))) as ->. rewrite Hi in Hj. congruence.
    + intros j e c' Hj. destruct (nth_replace _ _ _ _ _ Hj) as [(<- & Q & _)|(N & Hj')]; [discriminate|].
      generalize (I4 j e c' Hj'). now apply reason_app.
    + intros j pc' Hj. destruct (nth_replace _ _ _ _ _ Hj) as [(<- & Q & _)|(N & Hj')]; [exact Ic|].
      apply in_app_iff. left. eauto.
Qed.

(* resume_writing and connection_lost *)
Lemma wake_inv ls l d paused lost f :
  DInv ls d -> (d_lost d <> None -> lost = d_lost d) ->
  (d_paused d = true) ->
  f = FResult \/ (exists o, f = FExn (OsError o) /\ lost = Some (Some o)) ->
  DInv (ls ++ [l]) (wake (Drain paused lost (d_closing d) (d_waiter d) (d_futs d) (d_holder d) (d_tasks d)) f).
Proof.
  intros [I1 I2 I3 I4 I5] Hl Hp Hf. unfold wake. cbn [d_waiter].
  assert (Rs : forall d', d_lost d' = lost -> forall i e, reason ls d i e -> reason (ls ++ [l]) d' i e).
  { intros d' Q i e. apply reason_app. intros Q'. rewrite Q. now apply Hl. }
  destruct (d_waiter d) as [w|] eqn:Ew.
  - unfold with_futs. cbn [d_paused d_lost d_closing d_waiter d_futs d_holder d_tasks].
    destruct (I3 w eq_refl) as (V1 & V2).
    set (futs := if fut_done (get_fut (d_futs d) w) then d_futs d else replace w f (d_futs d)).
    assert (Lf : length futs = length (d_futs d)) by (unfold futs; destruct (fut_done _); [reflexivity|apply length_replace]).
    assert (Fd : fut_done f = true) by (destruct Hf as [-> |(o & -> & _)]; reflexivity).
    assert (Nw : forall w', w' <> w -> get_fut futs w' = get_fut (d_futs d) w').
    { intros w' N. unfold futs. destruct (fut_done _); [reflexivity|]. apply get_fut_replace_neq. congruence. }
    assert (Wf : get_fut futs w <> FPending).
    { unfold futs. destruct (fut_done (get_fut (d_futs d) w)) eqn:Q; [|rewrite get_fut_replace_eq by exact V1];
        intros Q'; rewrite Q' in *; discriminate. }
    constructor; cbn [d_paused d_lost d_closing d_waiter d_futs d_holder d_tasks].
    + exact I1.
    + intros i w' c Hi. destruct (I2 i w' c Hi) as (W1 & W2 & W3). rewrite Lf. split; [exact W1|].
      destruct (Nat.eq_dec w' w) as [-> |N].
      * split; [intros Q; contradiction|]. intros e. unfold futs.
        destruct (fut_done (get_fut (d_futs d) w)) eqn:Q.
        -- intros He. destruct (W3 e He) as [Q1 Q2]. split; [revert Q1; now apply Rs|exact Q2].
        -- rewrite get_fut_replace_eq by exact V1. intros ->. destruct Hf as [Hf|(o & Hf & Ho)]; [discriminate|].
           injection Hf as ->. split; [|discriminate]. right. exists (Some o). cbn [d_lost]. split; [exact Ho|right; eauto].
      * rewrite (Nw w' N). split.
        -- intros Q. destruct (W2 Q) as (Q1 & _). rewrite Q1 in *. congruence.
        -- intros e He. destruct (W3 e He) as [Q1 Q2]. split; [revert Q1; now apply Rs|exact Q2].
    + discriminate.
    + intros i e c Hi. generalize (I4 i e c Hi). now apply Rs.
    + intros i pc Hi. apply in_app_iff. left. eauto.
  - constructor; cbn [d_paused d_lost d_closing d_waiter d_futs d_holder d_tasks].
    + exact I1.
    + intros i w c Hi. destruct (I2 i w c Hi) as (W1 & W2 & W3). split; [exact W1|]. split.
      * intros Q. destruct (W2 Q) as (Q1 & _). discriminate.
      * intros e He. destruct (W3 e He) as [Q1 Q2]. split; [revert Q1; now apply Rs|exact Q2].
    + discriminate.
    + intros i e c Hi. generalize (I4 i e c Hi). now apply Rs.
    + intros i pc Hi. apply in_app_iff. left. eauto.
Qed.

Lemma dstep_inv ls d l d' : DInv ls d -> dstep d l = Some d' -> DInv (ls ++ [l]) d'.
Proof.
  intros I H. destruct l as [|i|i|i| | |exc|]; cbn [dstep] in H.
  - apply some_inj in H as <-. destruct I as [I1 I2 I3 I4 I5].
    assert (Nt : forall j pc c, nth_error (d_tasks d ++ [(DIdle, false)]) j = Some (pc, c) ->
      nth_error (d_tasks d) j = Some (pc, c) \/ (pc = DIdle /\ c = false)).
    { intros j pc c Hj. destruct (Nat.lt_ge_cases j (length (d_tasks d))) as [L|Ge].
      - rewrite nth_error_app1 in Hj by exact L. now left.
      - rewrite nth_error_app2 in Hj by exact Ge. right.
        destruct (j - length (d_tasks d))%nat as [|[|n]]; cbn [nth_error] in Hj; try discriminate. injection Hj as <- <-. auto. }
    assert (Tn : forall j x, nth_error (d_tasks d) j = Some x -> nth_error (d_tasks d ++ [(DIdle, false)]) j = Some x).
    { intros j x Hj. rewrite nth_error_app1; [exact Hj|]. apply nth_error_Some. congruence. }
    constructor; cbn [d_paused d_lost d_closing d_waiter d_futs d_holder d_tasks].
    + intros j. split.
      * intros Q. apply I1 in Q as (pc & c & Hj & Hp). eauto.
      * intros (pc & c & Hj & Hp). destruct (Nt j pc c Hj) as [Q|[-> _]]; [apply I1; eauto|].
        destruct Hp as [Q|(w & Q)]; discriminate.
    + intros j w c Hj. destruct (Nt j _ _ Hj) as [Q|[Q _]]; [|discriminate]. destruct (I2 j w c Q) as (W1 & W2 & W3).
      split; [exact W1|]. split; [exact W2|]. intros e He. destruct (W3 e He) as [Q1 Q2]. split; [revert Q1; now apply reason_app|exact Q2].
    + intros w Hw. destruct (I3 w Hw) as (V1 & [V2|(V2 & j & c & Hj)]); (split; [exact V1|]); [now left|right].
      split; [exact V2|]. eauto.
    + intros j e c Hj. destruct (Nt j _ _ Hj) as [Q|[Q _]]; [|discriminate]. generalize (I4 j e c Q). now apply reason_app.
    + intros j pc Hj. destruct (Nt j _ _ Hj) as [Q|[_ Q]]; [|discriminate]. apply in_app_iff. left. eauto.
  - destruct (nth_error (d_tasks d) i) as [[pc0 c0]|] eqn:Hi; [|discriminate].
    assert (Np : pc0 = DIdle \/ exists e, pc0 = DRaised e) by (destruct pc0; try discriminate; eauto).
    assert (Hd : d' = Drain (d_paused d) (d_lost d) (d_closing d) (d_waiter d) (d_futs d) (d_holder d) (replace i (DLock, false) (d_tasks d))).
    { destruct Np as [-> |(e & ->)]; now apply some_inj in H. }
    rewrite Hd. apply (DInv_task ls (DWrite i) d i pc0 c0); try assumption; try discriminate.
    + intros [Q|(w & Q)]; discriminate.
    + intros _. destruct (d_holder d) as [j|] eqn:Eh; [|reflexivity]. destruct (Nat.eqb_spec i j) as [<- |]; [|reflexivity].
      exfalso. destruct (proj1 (inv_holder _ _ I i) Eh) as (pc & c & Hj & Hp). rewrite Hi in Hj. injection Hj as <- _.
      destruct Np as [-> |(e & ->)], Hp as [Q|(w & Q)]; discriminate.
    + intros w ->. destruct Np as [Q|(e & Q)]; discriminate.
  - exact (run_inv ls d i d' I H).
  - exact (cancel_inv ls d i d' I H).
  - destruct (d_paused d) eqn:Ep; [discriminate|]. apply some_inj in H as <-. destruct I as [I1 I2 I3 I4 I5].
    constructor; cbn [d_paused d_lost d_closing d_waiter d_futs d_holder d_tasks]; try assumption.
    + intros i w c Hi. destruct (I2 i w c Hi) as (W1 & W2 & W3). split; [exact W1|]. split.
      * intros Q. destruct (W2 Q) as (_ & Q' & _). congruence.
      * intros e He. destruct (W3 e He) as [Q1 Q2]. split; [revert Q1; now apply reason_app|exact Q2].
    + intros i e c Hi. generalize (I4 i e c Hi). now apply reason_app.
    + intros i pc Hi. apply in_app_iff. left. eauto.
  - destruct (d_paused d) eqn:Ep; [|discriminate]. apply some_inj in H as <-. apply wake_inv; auto.
  - destruct (d_lost d) eqn:El; [discriminate|]. cbv zeta in H. cbn [d_paused] in H. apply some_inj in H as <-.
    destruct (d_paused d) eqn:Ep.
    + apply wake_inv; auto; [congruence|]. destruct exc as [o|]; [right; exists o; now split|now left].
    + destruct I as [I1 I2 I3 I4 I5].
      constructor; cbn [d_paused d_lost d_closing d_waiter d_futs d_holder d_tasks]; try assumption.
      * intros i w c Hi. destruct (I2 i w c Hi) as (W1 & W2 & W3). split; [exact W1|]. split.
        -- intros Q. destruct (W2 Q) as (_ & Q' & _). congruence.
        -- intros e He. destruct (W3 e He) as [Q1 Q2]. split; [revert Q1; apply reason_app; congruence|exact Q2].
      * intros i e c Hi. generalize (I4 i e c Hi). apply reason_app. congruence.
      * intros i pc Hi. apply in_app_iff. left. eauto.
  - apply some_inj in H as <-. destruct I as [I1 I2 I3 I4 I5].
    constructor; cbn [d_paused d_lost d_closing d_waiter d_futs d_holder d_tasks]; try assumption.
    + intros i w c Hi. destruct (I2 i w c Hi) as (W1 & W2 & W3). split; [exact W1|]. split; [exact W2|].
      intros e He. destruct (W3 e He) as [Q1 Q2]. split; [revert Q1; now apply reason_app|exact Q2].
    + intros i e c Hi. generalize (I4 i e c Hi). now apply reason_app.
    + intros i pc Hi. apply in_app_iff. left. eauto.
Qed.

Lemma dexec_app d ls1 ls2 :
  dexec d (ls1 ++ ls2) = match dexec d ls1 with Some d => dexec d ls2 | None => None end.
Proof.
  revert d. induction ls1 as [|l ls1 IH]; intros d; [reflexivity|]. cbn [app dexec]. destruct (dstep d l); [apply IH|reflexivity].
Qed.
Lemma dexec_inv ls d : dexec dinitial ls = Some d -> DInv ls d.
Proof.
  revert d. induction ls as [|l ls IH] using rev_ind; intros d H.
  - apply some_inj in H as <-. constructor; cbn; try discriminate.
    + intros i. split; [discriminate|]. intros (pc & c & Hj & _). destruct i; discriminate.
    + intros [] ? ? ?; discriminate.
    + intros [] ? ? ?; discriminate.
    + intros [] ? ?; discriminate.
  - rewrite dexec_app in H. destruct (dexec dinitial ls) as [d1|]; [|discriminate]. cbn [dexec] in H.
    destruct (dstep d1 l) as [d2|] eqn:S; [|discriminate]. apply some_inj in H as <-. apply (dstep_inv ls d1); auto.
Qed.

(* Backpressure *)
Definition credit d (i : nat) : nat :=
  match nth_error (d_tasks d) i with
  | Some (DIdle, _) | Some (DRaised _, _) | None => 1
  | Some (DLock, c) | Some (DYield, c) => if c then 1 else 0
  | Some (DWait w, c) => if c then 1 else match get_fut (d_futs d) w with FPending => 0 | _ => 1 end
  end.

Lemma credit_at d i pc holder j : (i < length (d_tasks d))%nat ->
  credit (at_task d i pc holder) j =
    if Nat.eqb i j then match pc with DIdle | DRaised _ => 1 | DLock | DYield => 0
      | DWait w => match get_fut (d_futs d) w with FPending => 0 | _ => 1 end end%nat
    else credit d j.
Proof.
  intros L. unfold credit, at_task. cbn [d_tasks d_futs]. destruct (Nat.eqb_spec i j) as [<- |N].
  - rewrite nth_error_replace_eq by exact L. destruct pc; reflexivity.
  - rewrite nth_error_replace_neq by exact N. reflexivity.
Qed.

Lemma step_credit ls d l d' i : DInv ls d -> dstep d l = Some d' -> full d ->
  l <> DResume -> (forall exc, l <> DLost exc) ->
  full d' /\ (credit d' i + (if is_write i l then 1 else 0) <= credit d i + (if is_cancel i l then 1 else 0))%nat.
Proof.
  intros I H [F1 F2] N1 N2. pose proof (dstep_inv ls d l d' I H) as I'.
  destruct l as [|k|k|k| | |exc|]; cbn [dstep is_write is_cancel] in *; try congruence; try (now contradiction (N2 exc)).
  - apply some_inj in H as <-. split; [split; assumption|]. rewrite !Nat.add_0_r. unfold credit. cbn [d_tasks d_futs].
    destruct (Nat.lt_ge_cases i (length (d_tasks d))) as [L|Ge]; [now rewrite nth_error_app1|].
    rewrite nth_error_app2 by exact Ge. rewrite (proj2 (nth_error_None (d_tasks d) i)) by exact Ge.
    destruct (i - length (d_tasks d))%nat as [|[|n]]; cbn [nth_error]; lia.
  - destruct (nth_error (d_tasks d) k) as [[pc0 c0]|] eqn:Hk; [|discriminate].
    assert (L : (k < length (d_tasks d))%nat) by (apply nth_error_Some; congruence).
    assert (Hd : d' = at_task d k DLock (d_holder d)) by (destruct pc0; try discriminate; now apply some_inj in H).
    rewrite Hd. split; [split; assumption|]. rewrite credit_at by exact L. rewrite (Nat.eqb_sym k i).
    destruct (Nat.eqb_spec i k) as [-> |N]; [|lia]. unfold credit. rewrite Hk. destruct pc0; try discriminate; lia.
  - unfold run_task in H. destruct (nth_error (d_tasks d) k) as [[pc0 c0]|] eqn:Hk; [|discriminate].
    assert (L : (k < length (d_tasks d))%nat) by (apply nth_error_Some; congruence).
    assert (Ck : credit d k = match pc0, c0 with
      | DIdle, _ | DRaised _, _ => 1 | DLock, c | DYield, c => if c then 1 else 0
      | DWait w, c => if c then 1 else match get_fut (d_futs d) w with FPending => 0 | _ => 1 end end%nat).
    { unfold credit. rewrite Hk. now destruct pc0, c0. }
    assert (At : forall pc holder, (match pc with DIdle | DRaised _ => 1 | DLock | DYield => 0
      | DWait w => match get_fut (d_futs d) w with FPending => 0 | _ => 1 end end <= credit d k)%nat ->
      full (at_task d k pc holder) /\ (credit (at_task d k pc holder) i + 0 <= credit d i + 0)%nat).
    { intros pc holder Q. split; [split; assumption|]. rewrite credit_at by exact L.
      destruct (Nat.eqb_spec k i) as [-> |N]; lia. }
    assert (Hp : forall d2, d2 = drain_helper d k -> DInv (ls ++ [DRun k]) d2 -> full d2 /\ (credit d2 i + 0 <= credit d i + 0)%nat).
    { intros d2 -> I2. unfold drain_helper in *. rewrite F1, F2 in *. cbn [negb] in *.
      destruct (match d_waiter d with None => true | Some w => fut_cancelled (get_fut (d_futs d) w) end).
      - split; [split; assumption|]. rewrite credit_at by exact L. cbn [with_futs d_futs]. rewrite get_fut_new.
        destruct (Nat.eqb_spec k i) as [-> |N]; [lia|]. unfold credit, with_futs. cbn [d_tasks d_futs].
        destruct (nth_error (d_tasks d) i) as [[pc c]|] eqn:Hi; [|lia]. destruct pc; try lia.
        rewrite get_fut_app; [lia|]. apply (inv_wait _ _ I i w c Hi).
      - exfalso. assert (R : reason (ls ++ [DRun k]) (at_task d k (DRaised (PyExn AssertionError)) None) k (PyExn AssertionError)).
        { apply (inv_raised _ _ I2 k _ false). cbn [at_task d_tasks]. now apply nth_error_replace_eq. }
        destruct R as [[Q _]|(exc & Q & _)]; [discriminate|]. cbn [at_task d_lost] in Q. congruence. }
    destruct pc0 as [| | |w|e]; try discriminate.
    + destruct c0.
      * apply some_inj in H as <-. apply At. lia.
      * destruct (d_holder d); [discriminate|]. apply some_inj in H as <-. unfold drain_start in *. rewrite F2 in *.
        destruct (d_closing d); [apply At; lia|]. now apply Hp.
    + destruct c0; apply some_inj in H as <-; [apply At; lia|]. now apply Hp.
    + destruct c0.
      * apply some_inj in H as <-. apply At. lia.
      * destruct (get_fut (d_futs d) w); try discriminate; apply some_inj in H as <-; apply At; lia.
  - unfold cancel_task in H. destruct (nth_error (d_tasks d) k) as [[pc0 c0]|] eqn:Hk; [|discriminate].
    assert (L : (k < length (d_tasks d))%nat) by (apply nth_error_Some; congruence).
    rewrite Nat.add_0_r.
    assert (Cn : forall pc futs, pc = pc0 ->
      (forall j w c, nth_error (d_tasks d) j = Some (DWait w, c) -> j <> k -> get_fut futs w = get_fut (d_futs d) w) ->
      let d' := Drain (d_paused d) (d_lost d) (d_closing d) (d_waiter d) futs (d_holder d) (replace k (pc, true) (d_tasks d)) in
      full d' /\ (credit d' i <= credit d i + (if Nat.eqb i k then 1 else 0))%nat).
    { intros pc futs -> Q. cbv zeta. split; [split; assumption|]. unfold credit. cbn [d_tasks d_futs].
      destruct (Nat.eqb_spec i k) as [-> |N].
      - rewrite nth_error_replace_eq by exact L. rewrite Hk. destruct pc0; lia.
      - rewrite nth_error_replace_neq by congruence. destruct (nth_error (d_tasks d) i) as [[pc c]|] eqn:Hi; [|lia].
        destruct pc; try lia. rewrite (Q i w c Hi N). lia. }
    destruct pc0 as [| | |w|e]; try discriminate; apply some_inj in H as <-; apply Cn; auto.
    intros j w' c Hj N. exfalso.
    assert (Q1 : d_holder d = Some j) by (apply I; exists (DWait w'), c; split; [exact Hj|right; eauto]).
    assert (Q2 : d_holder d = Some k) by (apply I; exists (DWait w), c0; split; [exact Hk|right; eauto]). congruence.
  - rewrite F1 in H. discriminate.
  - apply some_inj in H as <-. split; [split; assumption|]. unfold credit. cbn [d_tasks d_futs]. lia.
Qed.

Lemma exec_credit i ls2 : forall ls d d', DInv ls d -> dexec d ls2 = Some d' -> full d ->
  ~ In DResume ls2 -> (forall exc, ~ In (DLost exc) ls2) ->
  (credit d' i + writes i ls2 <= credit d i + cancels i ls2)%nat.
Proof.
  induction ls2 as [|l ls2 IH]; intros ls d d' I H F N1 N2.
  - apply some_inj in H as <-. unfold writes, cancels. cbn. lia.
  - cbn [dexec] in H. destruct (dstep d l) as [d1|] eqn:S; [|discriminate].
    destruct (step_credit ls d l d1 i I S F) as [F' C].
    { intros ->. apply N1. now left. }
    { intros exc ->. apply (N2 exc). now left. }
    assert (Q := IH (ls ++ [l]) d1 d' (dstep_inv _ _ _ _ I S) H F' (fun q => N1 (or_intror q)) (fun exc q => N2 exc (or_intror q))).
    unfold writes, cancels in *. cbn [filter]. destruct (is_write i l), (is_cancel i l); cbn [length]; lia.
Qed.

(* Tasks that wait *)
Lemma waits_blocked ls d i : DInv ls d -> idle d -> waits d i -> full d.
Proof.
  intros I Hidle (pc & c & Hi & Hp).
  assert (Blk : forall j pc c, nth_error (d_tasks d) j = Some (pc, c) -> holds pc -> full d).
  { intros j pc' c' Hj Hq. pose proof (Hidle j) as Q. cbn [dstep] in Q. unfold run_task in Q. rewrite Hj in Q.
    destruct Hq as [-> |(w & ->)]; [destruct c'; discriminate|]. destruct c'; [discriminate|].
    destruct (get_fut (d_futs d) w) eqn:Ef; try discriminate.
    destruct (inv_wait _ _ I j w false Hj) as (_ & W & _). destruct (W Ef) as (_ & ? & ? & _). now split. }
  destruct Hp as [-> |Hp].
  - pose proof (Hidle i) as Q. cbn [dstep] in Q. unfold run_task in Q. rewrite Hi in Q. destruct c; [discriminate|].
    destruct (d_holder d) as [j|] eqn:Eh; [|discriminate].
    destruct (proj1 (inv_holder _ _ I j) Eh) as (pc & c & Hj & Hq). eauto.
  - apply (Blk i pc c Hi). exact Hp.
Qed.

(* Termination *)
Definition weight (t : dpc * bool) : nat := match fst t with DLock => 3 | DYield => 2 | DWait _ => 1 | _ => 0 end.
Definition work (ts : list (dpc * bool)) : nat := list_sum (map weight ts).
Lemma work_replace ts : forall i x y, nth_error ts i = Some x -> (work (replace i y ts) + weight x = work ts + weight y)%nat.
Proof.
  induction ts as [|t ts IH]; intros [|i] x y H; cbn [nth_error] in H; try discriminate.
  - injection H as <-. unfold work. cbn [replace map list_sum fold_right]. lia.
  - specialize (IH i x y H). unfold work, list_sum in *. cbn [replace map fold_right]. lia.
Qed.
Lemma run_work d i d' : dstep d (DRun i) = Some d' -> (work (d_tasks d') < work (d_tasks d))%nat.
Proof.
  cbn [dstep]. unfold run_task. intros H. destruct (nth_error (d_tasks d) i) as [[pc0 c0]|] eqn:Hi; [|discriminate].
  assert (At : forall pc holder d2, d_tasks d2 = d_tasks d -> (weight (pc, false) < weight (pc0, c0))%nat ->
    (work (d_tasks (at_task d2 i pc holder)) < work (d_tasks d))%nat).
  { intros pc holder d2 Q Q'. cbn [at_task d_tasks]. rewrite Q. pose proof (work_replace _ i _ (pc, false) Hi). lia. }
  assert (Hp : (1 < weight (pc0, c0))%nat -> (work (d_tasks (drain_helper d i)) < work (d_tasks d))%nat).
  { intros Q. unfold drain_helper. destruct (d_lost d); [apply At; [reflexivity|unfold weight in *; cbn [fst] in *; lia]|].
    destruct (negb (d_paused d)); [apply At; [reflexivity|unfold weight in *; cbn [fst] in *; lia]|].
    destruct (match d_waiter d with None => true | Some w => fut_cancelled (get_fut (d_futs d) w) end);
      apply At; try reflexivity; unfold weight in *; cbn [fst] in *; lia. }
  destruct pc0 as [| | |w|e]; try discriminate.
  - destruct c0; [apply some_inj in H as <-; apply At; [reflexivity|unfold weight in *; cbn [fst] in *; lia]|].
    destruct (d_holder d); [discriminate|]. apply some_inj in H as <-. unfold drain_start.
    assert (Q : (work (d_tasks (if d_closing d then at_task d i DYield (Some i) else drain_helper d i)) < work (d_tasks d))%nat).
    { destruct (d_closing d); [apply At; [reflexivity|unfold weight in *; cbn [fst] in *; lia]|]. apply Hp. unfold weight in *; cbn [fst] in *; lia. }
    destruct (d_lost d) as [[o|]|]; try exact Q. apply At; [reflexivity|unfold weight in *; cbn [fst] in *; lia].
  - destruct c0; apply some_inj in H as <-; [apply At; [reflexivity|unfold weight in *; cbn [fst] in *; lia]|]. apply Hp. unfold weight in *; cbn [fst] in *; lia.
  - destruct c0; [apply some_inj in H as <-; apply At; [reflexivity|unfold weight in *; cbn [fst] in *; lia]|].
    destruct (get_fut (d_futs d) w); try discriminate; apply some_inj in H as <-; (apply At; [reflexivity|unfold weight in *; cbn [fst] in *; lia]).
Qed.
Lemma running_work ls : forall d d', running ls -> dexec d ls = Some d' -> (length ls + work (d_tasks d') <= work (d_tasks d))%nat.
Proof.
  induction ls as [|l ls IH]; intros d d' R H.
  - apply some_inj in H as <-. cbn. lia.
  - cbn [dexec] in H. destruct (dstep d l) as [d1|] eqn:S; [|discriminate].
    destruct (R l (or_introl eq_refl)) as (i & ->). pose proof (run_work d i d1 S).
    pose proof (IH d1 d' (fun l q => R l (or_intror q)) H). cbn [length]. lia.
Qed.
Lemma work_bound ts : (work ts <= 3 * length ts)%nat.
Proof.
  induction ts as [|[pc c] ts IH]; unfold work in *; cbn [map list_sum fold_right length]; [lia|].
  change (fold_right Nat.add 0%nat (map weight ts)) with (list_sum (map weight ts)).
  assert (weight (pc, c) <= 3)%nat by (destruct pc; cbn; lia). lia.
Qed.
