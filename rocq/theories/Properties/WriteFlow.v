(* C105: backpressure on outgoing data *)
From Verif Require Import Base.Prelude Base.PreludeFacts Model.WriteFlow.
Local Open Scope N_scope.

(* Frames of at most [size] bytes on the wire, and no send() cancelled *)
Definition modest (size : N) (l : wflow_label) : Prop :=
  match l with WfWrite _ kept => kept <= size | WfCancel _ => False | _ => True end.

(* Tasks that wrote since the buffer was last drained for them *)
Definition counted (t : sender) : N := match t with Wrote | AwaitsDrain => 1 | _ => 0 end.
Fixpoint count (l : list sender) : N := match l with [] => 0 | t :: r => counted t + count r end.
Lemma count_le l : count l <= N.of_nat (length l).
Proof. induction l as [|t l IH]; cbn [count length]; [lia|]. destruct t; cbn [counted]; lia. Qed.
Lemma count_set l : forall i t t0, nth_error l i = Some t0 -> count (set_task i t l) + counted t0 = count l + counted t.
Proof.
  induction l as [|x l IH]; intros [|i] t t0 E; cbn [nth_error set_task count] in *; try discriminate.
  - apply some_inj in E. subst x. lia.
  - specialize (IH i t t0 E). lia.
Qed.
Lemma set_length l : forall i t, length (set_task i t l) = length l.
Proof. induction l as [|x l IH]; intros [|i] t; cbn [set_task length]; auto. Qed.
Lemma set_in l : forall i t x, In x (set_task i t l) -> x = t \/ In x l.
Proof. induction l as [|y l IH]; intros [|i] t x; cbn [set_task In]; auto; intros [H|H]; auto. destruct (IH _ _ _ H); auto. Qed.

(* What holds in all executions *)
Record invariant (write_limit : N) (n : nat) (st : wflow) : Prop := {
  iw_tasks : length (wf_tasks st) = n;
  iw_free : wf_paused st = false -> wf_size st <= write_limit;
  iw_paused : wf_paused st = true -> write_limit / 4 < wf_size st;
  iw_waits : In AwaitsDrain (wf_tasks st) -> wf_paused st = true }.
Lemma quarter write_limit : write_limit / 4 <= write_limit.
Proof. apply N.div_le_upper_bound; lia. Qed.
Lemma step_invariant write_limit n st l st' : wflow_step write_limit st l = Some st' -> invariant write_limit n st -> invariant write_limit n st'.
Proof.
  intros S [I1 I2 I3 I4]. pose proof (quarter write_limit) as Q. destruct l as [i kept|i|i|i|sent]; cbn [wflow_step] in S.
  - destruct (nth_error (wf_tasks st) i) as [[]|]; try discriminate S. apply some_inj in S as <-. unfold transport_write, high_water.
    destruct (N.eqb_spec kept 0) as [->|K]; [|destruct (N.ltb_spec write_limit (wf_size st + kept)) as [H|H]];
      constructor; cbn [with_task wf_size wf_paused wf_tasks]; auto; try (now rewrite set_length); intros X; try discriminate X; try lia;
      try (apply set_in in X as [X|X]; [discriminate|auto]).
  - destruct (nth_error (wf_tasks st) i) as [[]|]; try discriminate S. destruct (lock_free st); [|discriminate]. apply some_inj in S as <-.
    constructor; cbn [with_task wf_size wf_paused wf_tasks]; auto; [now rewrite set_length|]. intros X. apply set_in in X as [X|X]; [|auto]. now destruct (wf_paused st).
  - destruct (nth_error (wf_tasks st) i) as [[]|]; try discriminate S. apply some_inj in S as <-.
    constructor; cbn [with_task wf_size wf_paused wf_tasks]; auto; [now rewrite set_length|]. intros X. apply set_in in X as [X|X]; [discriminate|auto].
  - assert (S' : Some (with_task i NotWriting st) = Some st') by (destruct (nth_error (wf_tasks st) i) as [[]|]; try discriminate S; exact S). apply some_inj in S' as <-.
    constructor; cbn [with_task wf_size wf_paused wf_tasks]; auto; [now rewrite set_length|]. intros X. apply set_in in X as [X|X]; [discriminate|auto].
  - destruct (sent <=? wf_size st); [|discriminate]. apply some_inj in S as <-. unfold transport_sent, low_water.
    destruct (wf_paused st) eqn:P; cbn [andb]; [destruct (N.leb_spec (wf_size st - sent) (write_limit / 4)) as [H|H]|];
      constructor; cbn [wf_size wf_paused wf_tasks]; auto; try discriminate; try (now rewrite map_length); intros X; try lia.
    + apply in_map_iff in X as ([] & X & _); discriminate X.
Qed.
Lemma init_invariant write_limit n : invariant write_limit n (wflow_init n).
Proof.
  constructor; cbn; intros; try discriminate; try lia; [apply repeat_length|]. apply repeat_spec in H. discriminate.
Qed.
Lemma run_invariant write_limit n ls : forall st st', wflow_run write_limit st ls = Some st' -> invariant write_limit n st -> invariant write_limit n st'.
Proof.
  induction ls as [|l ls IH]; intros st st' R I; cbn [wflow_run] in R; [now apply some_inj in R as <-|].
  destruct (wflow_step write_limit st l) as [st1|] eqn:S; [|discriminate]. apply (IH st1 st' R). now apply (step_invariant _ _ _ _ _ S).
Qed.

(* When n tasks send frames, at most write_limit bytes are buffered, and one frame for each task and
   for each call that was cancelled. *)
Definition frames_within (size : N) (l : wflow_label) : Prop := match l with WfWrite _ kept => kept <= size | _ => True end.
Definition cancelled (l : wflow_label) : N := match l with WfCancel _ => 1 | _ => 0 end.
Definition cancellations (ls : list wflow_label) : N := fold_right (fun l n => cancelled l + n) 0 ls.
Theorem C105_bounded_with_cancellations : forall write_limit size n ls st, Forall (frames_within size) ls -> wflow_run write_limit (wflow_init n) ls = Some st ->
  wf_size st <= write_limit + size * (N.of_nat n + cancellations ls).
Proof.
  intros write_limit size n ls st M R.
  assert (G : forall k st0, wflow_run write_limit st0 ls = Some st -> invariant write_limit n st0 -> wf_size st0 <= write_limit + size * (count (wf_tasks st0) + k) ->
    wf_size st <= write_limit + size * (count (wf_tasks st) + (k + cancellations ls)) /\ invariant write_limit n st).
  { clear R. induction M as [|l ls Ml Ms IH]; intros k st0 R I B; cbn [wflow_run] in R.
    - apply some_inj in R as <-. cbn [cancellations fold_right]. rewrite N.add_0_r. auto.
    - destruct (wflow_step write_limit st0 l) as [st1|] eqn:S; [|discriminate].
      assert (B1 : wf_size st1 <= write_limit + size * (count (wf_tasks st1) + (k + cancelled l))).
      { destruct I as [I1 I2 I3 I4]. pose proof (quarter write_limit) as Q. destruct l as [i kept|i|i|i|sent]; cbn [wflow_step frames_within cancelled] in *.
        - destruct (nth_error (wf_tasks st0) i) as [[]|] eqn:E; try discriminate S. apply some_inj in S as <-.
          pose proof (count_set _ i Wrote _ E) as C. cbn [counted] in C. unfold transport_write. destruct (kept =? 0); cbn [with_task wf_size wf_tasks]; nia.
        - destruct (nth_error (wf_tasks st0) i) as [[]|] eqn:E; try discriminate S. destruct (lock_free st0); [|discriminate]. apply some_inj in S as <-.
          cbn [with_task wf_size wf_tasks]. destruct (wf_paused st0).
          + pose proof (count_set _ i AwaitsDrain _ E) as C. cbn [counted] in C. nia.
          + specialize (I2 eq_refl). lia.
        - destruct (nth_error (wf_tasks st0) i) as [[]|] eqn:E; try discriminate S. apply some_inj in S as <-. cbn [with_task wf_size wf_tasks].
          pose proof (count_set _ i NotWriting _ E) as C. cbn [counted] in C. nia.
        - destruct (nth_error (wf_tasks st0) i) as [t|] eqn:E; [|discriminate S]. assert (S' : with_task i NotWriting st0 = st1) by (destruct t; try discriminate S; now apply some_inj in S).
          subst st1. cbn [with_task wf_size wf_tasks]. pose proof (count_set _ i NotWriting _ E) as C. cbn [counted] in C. assert (counted t <= 1) by (destruct t; cbn; lia). nia.
        - destruct (sent <=? wf_size st0); [|discriminate]. apply some_inj in S as <-. unfold transport_sent, low_water.
          destruct (wf_paused st0 && (wf_size st0 - sent <=? write_limit / 4)) eqn:P; cbn [wf_size wf_tasks]; [|lia].
          apply andb_prop in P as [_ P]. apply N.leb_le in P. lia. }
      destruct (IH (k + cancelled l) st1 R (step_invariant _ _ _ _ _ S I) B1) as [H1 H2]. split; [|exact H2].
      cbn [cancellations fold_right]. fold (cancellations ls). replace (k + (cancelled l + cancellations ls)) with (k + cancelled l + cancellations ls) by lia. exact H1. }
  destruct (G 0 _ R (init_invariant _ _)) as [B I]; [cbn; lia|]. pose proof (count_le (wf_tasks st)) as C. rewrite (iw_tasks _ _ _ I) in C. nia.
Qed.
(* When n tasks send frames, at most write_limit bytes and one frame for each task are buffered.
   Missing: calls of send() that are cancelled; see C105_cancelled_refuted. *)
Theorem C105_bounded_partial : forall write_limit size n ls st, Forall (modest size) ls -> wflow_run write_limit (wflow_init n) ls = Some st ->
  wf_size st <= write_limit + size * N.of_nat n.
Proof.
  intros write_limit size n ls st M R.
  assert (F : Forall (frames_within size) ls) by (revert M; apply Forall_impl; intros [] H; cbn in *; auto).
  assert (C : cancellations ls = 0) by (clear R F; induction M as [|l ls Ml _ IH]; [reflexivity|]; cbn [cancellations fold_right]; fold (cancellations ls); rewrite IH; destruct l; [reflexivity..|destruct Ml|reflexivity]).
  pose proof (C105_bounded_with_cancellations _ _ _ _ _ F R) as B. rewrite C, N.add_0_r in B. exact B.
Qed.
(* With a single task whose calls of send() are cancelled, for example by wait_for(), the buffer
   isn't bounded. *)
Theorem C105_cancelled_refuted : forall write_limit bound, exists ls st,
  Forall (fun l => match l with WfWrite _ kept => kept <= 1 | _ => True end) ls /\ wflow_run write_limit (wflow_init 1) ls = Some st /\ bound <= wf_size st.
Proof.
  intros write_limit bound.
  assert (G : forall k size p, exists ls st, Forall (fun l => match l with WfWrite _ kept => kept <= 1 | _ => True end) ls /\
    wflow_run write_limit {| wf_size := size; wf_paused := p; wf_tasks := [NotWriting] |} ls = Some st /\ N.of_nat k + size <= wf_size st).
  { induction k as [|k IH]; intros size p.
    - exists [], {| wf_size := size; wf_paused := p; wf_tasks := [NotWriting] |}. split; [constructor|]. split; [reflexivity|]. cbn. lia.
    - destruct (IH (size + 1) (if write_limit <? size + 1 then true else p)) as (ls & st & F & R & B). exists (WfWrite 0 1 :: WfCancel 0 :: ls), st.
      split; [constructor; [lia|constructor; [exact I|exact F]]|]. split; [exact R|]. lia. }
  destruct (G (N.to_nat bound) 0 false) as (ls & st & F & R & B). exists ls, st. split; [exact F|]. split; [exact R|]. lia.
Qed.

(* A task only waits while more than a quarter of write_limit is buffered: no wakeup is lost, even if
   other tasks are cancelled. *)
Theorem C105_waits : forall write_limit n ls st, wflow_run write_limit (wflow_init n) ls = Some st ->
  In AwaitsDrain (wf_tasks st) -> write_limit / 4 < wf_size st.
Proof.
  intros write_limit n ls st R H. pose proof (run_invariant _ n _ _ _ R (init_invariant _ _)) as I. apply (iw_paused _ _ _ I), (iw_waits _ _ _ I), H.
Qed.
(* A task that gets the lock when at most a quarter of write_limit is buffered returns; when more
   than write_limit is buffered, it waits. *)
Theorem C105_drain : forall write_limit n ls st i st', wflow_run write_limit (wflow_init n) ls = Some st ->
  wflow_step write_limit st (WfDrain i) = Some st' ->
  (wf_size st <= write_limit / 4 -> nth_error (wf_tasks st') i = Some NotWriting) /\
  (write_limit < wf_size st -> nth_error (wf_tasks st') i = Some AwaitsDrain).
Proof.
  intros write_limit n ls st i st' R S. pose proof (run_invariant _ n _ _ _ R (init_invariant _ _)) as [I1 I2 I3 I4]. cbn [wflow_step] in S.
  destruct (nth_error (wf_tasks st) i) as [[]|] eqn:E; try discriminate S. destruct (lock_free st); [|discriminate]. apply some_inj in S as <-.
  assert (N : forall t, nth_error (set_task i t (wf_tasks st)) i = Some t).
  { intros t. clear - E. revert i E. induction (wf_tasks st) as [|x l IH]; intros [|i] E; cbn in *; try discriminate; auto. }
  cbn [with_task wf_tasks]. rewrite N. destruct (wf_paused st); split; intros H; try reflexivity.
  - specialize (I3 eq_refl). lia.
  - specialize (I2 eq_refl). lia.
Qed.
(* Writing is only paused above write_limit, and only resumed at a quarter of it. *)
Theorem C105_hysteresis : forall write_limit st l st', wflow_step write_limit st l = Some st' ->
  (wf_paused st = false -> wf_paused st' = true -> write_limit < wf_size st') /\
  (wf_paused st = true -> wf_paused st' = false -> wf_size st' <= write_limit / 4).
Proof.
  intros write_limit st l st' S. destruct l as [i kept|i|i|i|sent]; cbn [wflow_step] in S.
  - destruct (nth_error (wf_tasks st) i) as [[]|]; try discriminate S. apply some_inj in S as <-. unfold transport_write, high_water.
    destruct (kept =? 0); [|destruct (N.ltb_spec write_limit (wf_size st + kept)) as [H|H]]; cbn [with_task wf_size wf_paused]; split; intros; congruence || auto.
  - destruct (nth_error (wf_tasks st) i) as [[]|]; try discriminate S. destruct (lock_free st); [|discriminate]. apply some_inj in S as <-. cbn. split; congruence.
  - destruct (nth_error (wf_tasks st) i) as [[]|]; try discriminate S. apply some_inj in S as <-. cbn. split; congruence.
  - destruct (nth_error (wf_tasks st) i) as [[]|]; try discriminate S; apply some_inj in S as <-; cbn; split; congruence.
  - destruct (sent <=? wf_size st); [|discriminate]. apply some_inj in S as <-. unfold transport_sent, low_water.
    destruct (wf_paused st) eqn:P; cbn [andb]; [destruct (N.leb_spec (wf_size st - sent) (write_limit / 4)) as [H|H]|]; cbn [wf_size wf_paused]; split; congruence || auto.
Qed.

(* When the network takes all the data, all calls can return, without writing more and without
   cancellation: no task holds the lock forever. *)
Definition returning (l : wflow_label) : Prop := match l with WfWrite _ _ | WfCancel _ => False | _ => True end.
Definition active (t : sender) : nat := match t with NotWriting => 0 | _ => 1 end.
Fixpoint actives (l : list sender) : nat := match l with [] => 0 | t :: r => active t + actives r end.
Lemma actives_set l : forall i t, nth_error l i = Some t -> (actives (set_task i NotWriting l) + active t = actives l)%nat.
Proof.
  induction l as [|x l IH]; intros [|i] t E; cbn [nth_error set_task actives] in *; try discriminate.
  - apply some_inj in E. subst x. cbn. lia.
  - specialize (IH i t E). lia.
Qed.
Lemma all_return write_limit k : forall st, wf_paused st = false -> ~ In AwaitsDrain (wf_tasks st) -> actives (wf_tasks st) = k ->
  exists ls st', Forall returning ls /\ wflow_run write_limit st ls = Some st' /\ Forall (eq NotWriting) (wf_tasks st').
Proof.
  induction k as [k IH] using lt_wf_ind. intros st P N A.
  assert (Next : forall i t l, nth_error (wf_tasks st) i = Some t -> active t = 1%nat -> returning l -> wflow_step write_limit st l = Some (with_task i NotWriting st) ->
    exists ls st', Forall returning ls /\ wflow_run write_limit st ls = Some st' /\ Forall (eq NotWriting) (wf_tasks st')).
  { intros i t l E At Rl S. pose proof (actives_set _ _ _ E) as C. rewrite At in C.
    destruct (IH (actives (set_task i NotWriting (wf_tasks st)))%nat) with (st := with_task i NotWriting st) as (ls & st' & F & R & Q); try reflexivity; [lia|exact P| |].
    - cbn. intros I. apply set_in in I as [I|I]; [discriminate|auto].
    - exists (l :: ls), st'. split; [now constructor|]. split; [cbn [wflow_run]; now rewrite S|exact Q]. }
  destruct (lock_free st) eqn:L.
  - destruct (in_dec (fun a b : sender => ltac:(decide equality)) Wrote (wf_tasks st)) as [I|I].
    + apply In_nth_error in I as [i E]. apply (Next i Wrote (WfDrain i) E); [reflexivity|exact Logic.I|]. cbn [wflow_step]. now rewrite E, L, P.
    + exists [], st. split; [constructor|]. split; [reflexivity|]. apply Forall_forall. intros t It. unfold lock_free in L. rewrite forallb_forall in L. specialize (L t It). destruct t; try discriminate; [reflexivity|contradiction].
  - assert (I : In Drained (wf_tasks st)).
    { unfold lock_free in L. clear - L N. induction (wf_tasks st) as [|t l IH]; cbn in *; [discriminate|]. destruct t; cbn in *; [right; apply IH; tauto..|exfalso; apply N; now left|now left]. }
    apply In_nth_error in I as [i E]. apply (Next i Drained (WfReturn i) E); [reflexivity|exact Logic.I|]. cbn [wflow_step]. now rewrite E.
Qed.
Theorem C105_progress : forall write_limit n ls st, wflow_run write_limit (wflow_init n) ls = Some st ->
  exists ls' st', Forall returning ls' /\ wflow_run write_limit st ls' = Some st' /\ Forall (eq NotWriting) (wf_tasks st').
Proof.
  intros write_limit n ls st R. pose proof (run_invariant _ n _ _ _ R (init_invariant _ _)) as I.
  set (st1 := transport_sent write_limit (wf_size st) st).
  assert (S : wflow_step write_limit st (WfSent (wf_size st)) = Some st1) by (cbn [wflow_step]; now rewrite N.leb_refl).
  pose proof (step_invariant _ _ _ _ _ S I) as I1.
  assert (Z : wf_size st1 = 0) by (unfold st1, transport_sent; destruct (_ && _); cbn; lia).
  assert (P : wf_paused st1 = false) by (destruct (wf_paused st1) eqn:P; [|reflexivity]; pose proof (iw_paused _ _ _ I1 P); lia).
  assert (Na : ~ In AwaitsDrain (wf_tasks st1)) by (intros X; pose proof (iw_waits _ _ _ I1 X); congruence).
  destruct (all_return write_limit (actives (wf_tasks st1)) st1 P Na eq_refl) as (ls' & st' & F & R' & Q).
  exists (WfSent (wf_size st) :: ls'), st'. split; [constructor; [exact Logic.I|exact F]|]. split; [cbn [wflow_run]; now rewrite S|exact Q].
Qed.

(* write_limit = 8, two tasks, frames of 6 bytes *)
Example C105_applies :
  let state ls := option_map (fun st => (wf_size st, wf_paused st, wf_tasks st)) (wflow_run 8 (wflow_init 2) ls) in
  let full := [WfWrite 0 6; WfDrain 0; WfWrite 0 6; WfDrain 0; WfWrite 1 6] in
  state [WfWrite 0 6; WfDrain 0] = Some (6, false, [NotWriting; NotWriting]) /\
  state full = Some (18, true, [AwaitsDrain; Wrote]) /\
  Forall (modest 6) full /\
  state (full ++ [WfWrite 0 6]) = None /\ state (full ++ [WfDrain 1]) = None /\
  state (full ++ [WfSent 15]) = Some (3, true, [AwaitsDrain; Wrote]) /\
  state (full ++ [WfSent 16; WfReturn 0; WfDrain 1]) = Some (2, false, [NotWriting; NotWriting]).
Proof. split; [|split; [|split; [repeat constructor; cbn; lia|]]]; repeat split; vm_compute; reflexivity. Qed.

Print Assumptions C105_bounded_partial.
Print Assumptions C105_bounded_with_cancellations.
Print Assumptions C105_cancelled_refuted.
Print Assumptions C105_waits.
Print Assumptions C105_drain.
Print Assumptions C105_hysteresis.
Print Assumptions C105_progress.
