(* C104: backpressure on incoming data *)
From Verif Require Import Base.Prelude Base.PreludeFacts Model.Streams Model.ReadFlow Proofs.Http11Facts.
Local Open Scope N_scope.

(* In an execution, the network gives at most [piece] bytes at once, and the program never reads
   more than [size] bytes at once: 2, 4 or 8 bytes, or the payload of a frame, whose size max_size limits. *)
Definition within (piece size : N) (l : flow_label) : Prop :=
  match l with FlReceive data => lenN data <= piece | FlRead (ReadExactly n) => n <= size | _ => True end.

Record invariant (read_limit piece size : N) (st : flow) : Prop := {
  iv_flowing : rf_flowing st = negb (rf_paused st);
  iv_small : rf_flowing st = true -> lenN (rf_buffer st) <= N.max read_limit size;
  iv_bound : lenN (rf_buffer st) <= N.max read_limit size + piece;
  iv_paused : rf_paused st = true -> limit read_limit < lenN (rf_buffer st);
  iv_waiter : rf_waiter st = true -> rf_flowing st = true /\ rf_reading st <> None;
  iv_over : rf_flowing st = true -> rf_waiter st = false -> lenN (rf_buffer st) <= 2 * limit read_limit;
  iv_reading : forall n, rf_reading st = Some (ReadExactly n) -> n <= size }.
Lemma lenN_skipn n (x : bytes) : lenN (skipn n x) <= lenN x.
Proof. unfold lenN. rewrite skipn_length. lia. Qed.
Lemma half read_limit : 2 * limit read_limit <= read_limit.
Proof. unfold limit. apply N.mul_div_le. lia. Qed.
Lemma finish_invariant read_limit piece size r n st : rf_waiter st = false ->
  invariant read_limit piece size st -> invariant read_limit piece size (finish read_limit r n st).
Proof.
  unfold finish. pose proof (lenN_skipn n (rf_buffer st)) as L. revert L. generalize (skipn n (rf_buffer st)). intros buffer L.
  intros W [I1 I2 I3 I4 I5 I6 I7]. pose proof (half read_limit) as Hh. destruct st as [bu pa fl re wa go]. cbn [rf_buffer rf_paused rf_flowing rf_reading rf_waiter] in *. subst fl wa.
  cbn [rf_buffer rf_paused rf_flowing rf_reading rf_waiter]. destruct (N.leb_spec (lenN buffer) (limit read_limit)) as [H|H], pa; cbn [andb negb] in *;
    constructor; cbn [rf_buffer rf_paused rf_flowing rf_reading rf_waiter negb]; intros; try discriminate; try reflexivity; try lia;
    try (specialize (I2 eq_refl)); try (specialize (I6 eq_refl eq_refl)); lia.
Qed.
Lemma attempt_invariant read_limit piece size r st : rf_waiter st = false -> (forall n, r = ReadExactly n -> n <= size) ->
  invariant read_limit piece size st -> invariant read_limit piece size (attempt read_limit r st).
Proof.
  intros W R I. pose proof (half read_limit) as Hh.
  assert (Wt : lenN (rf_buffer st) <= N.max read_limit size -> invariant read_limit piece size (wait_for_data r st)).
  { intros H. destruct I as [I1 I2 I3 I4 I5 I6 I7]. unfold wait_for_data. destruct st as [bu pa fl re wa go]. cbn [rf_buffer rf_paused rf_flowing rf_reading rf_waiter] in *. subst fl wa.
    destruct pa; constructor; cbn [rf_buffer rf_paused rf_flowing rf_reading rf_waiter negb]; intros; try discriminate; try reflexivity; try lia;
      try (split; [reflexivity|discriminate]); apply R; congruence. }
  unfold attempt. destruct r as [n|].
  - destruct (n =? 0).
    + destruct I as [I1 I2 I3 I4 I5 I6 I7]. destruct st as [bu pa fl re wa go]. cbn [rf_buffer rf_paused rf_flowing rf_reading rf_waiter] in *.
      constructor; cbn [rf_buffer rf_paused rf_flowing rf_reading rf_waiter]; auto; try discriminate. congruence.
    + destruct (N.ltb_spec (lenN (rf_buffer st)) n) as [H|H]; [|now apply finish_invariant].
      apply Wt. specialize (R n eq_refl). lia.
  - destruct (find_lf (rf_buffer st)); [now apply finish_invariant|].
    destruct (N.ltb_spec (limit read_limit) (lenN (rf_buffer st))) as [H|H]; [now apply finish_invariant|].
    apply Wt. lia.
Qed.
Lemma feed_invariant read_limit piece size data st : rf_flowing st = true -> lenN data <= piece ->
  invariant read_limit piece size st -> invariant read_limit piece size (feed_data read_limit data st).
Proof.
  intros F D I. destruct data as [|d0 d]; [exact I|]. pose proof (half read_limit) as Hh. unfold feed_data. set (data := d0 :: d) in *. clearbody data.
  destruct I as [I1 I2 I3 I4 I5 I6 I7]. destruct st as [bu pa fl re wa go]. cbn [rf_buffer rf_paused rf_flowing rf_reading rf_waiter] in *. subst fl.
  destruct pa; [discriminate I1|]. cbn [negb andb]. specialize (I2 eq_refl).
  assert (L : lenN (bu ++ data) = lenN bu + lenN data) by (unfold lenN; rewrite app_length; lia).
  destruct (N.ltb_spec (2 * limit read_limit) (lenN (bu ++ data))) as [H|H];
    constructor; cbn [rf_buffer rf_paused rf_flowing rf_reading rf_waiter negb]; intros; try discriminate; try reflexivity; auto; lia.
Qed.
Lemma run_invariant read_limit piece size ls : forall st st', Forall (within piece size) ls -> flow_run read_limit st ls = Some st' ->
  invariant read_limit piece size st -> invariant read_limit piece size st'.
Proof.
  induction ls as [|l ls IH]; intros st st' W R I; cbn [flow_run] in R; [now apply some_inj in R as <-|].
  inversion_clear W as [|? ? Wl Ws]. destruct (flow_step read_limit st l) as [st1|] eqn:S; [|discriminate]. apply (IH st1 st' Ws R). clear IH R.
  destruct l as [data|r|]; cbn [flow_step within] in *.
  - destruct (rf_flowing st) eqn:F; [|discriminate]. apply some_inj in S as <-. now apply feed_invariant.
  - destruct (rf_reading st) eqn:Re; [discriminate|]. apply some_inj in S as <-. apply attempt_invariant; [|intros n ->; exact Wl|exact I].
    destruct (rf_waiter st) eqn:Wa; [|reflexivity]. now destruct (iv_waiter _ _ _ _ I Wa).
  - destruct (rf_reading st) as [r|] eqn:Re; [|discriminate]. destruct (rf_waiter st) eqn:Wa; [discriminate|]. apply some_inj in S as <-.
    apply attempt_invariant; auto. intros n ->. now apply (iv_reading _ _ _ _ I).
Qed.
Lemma init_invariant read_limit piece size : invariant read_limit piece size flow_init.
Proof. constructor; cbn; intros; try discriminate; try reflexivity; unfold lenN; cbn; lia. Qed.

(* A connection buffers at most read_limit bytes, or what is being read if that's more, plus one
   piece of data. *)
Theorem C104_bounded : forall read_limit piece size ls st, Forall (within piece size) ls -> flow_run read_limit flow_init ls = Some st ->
  lenN (rf_buffer st) <= N.max read_limit size + piece.
Proof. intros read_limit piece size ls st W R. exact (iv_bound _ _ _ _ (run_invariant _ _ _ _ _ _ W R (init_invariant _ _ _))). Qed.

(* Any execution is within some bounds. *)
Lemma within_exists ls : exists piece size, Forall (within piece size) ls.
Proof.
  induction ls as [|l ls (p & z & IH)]; [exists 0, 0; constructor|].
  exists (N.max p (match l with FlReceive d => lenN d | _ => 0 end)), (N.max z (match l with FlRead (ReadExactly n) => n | _ => 0 end)).
  constructor; [destruct l as [d|[n|]|]; cbn; auto; lia|]. revert IH. apply Forall_impl. intros [d|[n|]|]; cbn; auto; lia.
Qed.
Lemma reach_invariant read_limit ls st : flow_run read_limit flow_init ls = Some st -> exists piece size, invariant read_limit piece size st.
Proof. intros R. destruct (within_exists ls) as (p & z & W). exists p, z. exact (run_invariant _ _ _ _ _ _ W R (init_invariant _ _ _)). Qed.

(* The transport isn't paused while a read waits for data. *)
Theorem C104_no_deadlock : forall read_limit ls st, flow_run read_limit flow_init ls = Some st -> rf_waiter st = true -> rf_flowing st = true.
Proof. intros read_limit ls st R W. destruct (reach_invariant _ _ _ R) as (p & z & I). now apply (iv_waiter _ _ _ _ I). Qed.
(* The transport is paused when more than read_limit bytes are buffered, unless a read waits for
   more. *)
Theorem C104_pauses : forall read_limit ls st, flow_run read_limit flow_init ls = Some st ->
  read_limit < lenN (rf_buffer st) -> rf_waiter st = false -> rf_flowing st = false.
Proof.
  intros read_limit ls st R H W. destruct (reach_invariant _ _ _ R) as (p & z & I). destruct (rf_flowing st) eqn:F; [|reflexivity].
  pose proof (iv_over _ _ _ _ I F W). pose proof (half read_limit). lia.
Qed.
(* It isn't paused when at most half of read_limit is buffered. *)
Theorem C104_resumes : forall read_limit ls st, flow_run read_limit flow_init ls = Some st ->
  lenN (rf_buffer st) <= read_limit / 2 -> rf_flowing st = true.
Proof.
  intros read_limit ls st R H. destruct (reach_invariant _ _ _ R) as (p & z & I). rewrite (iv_flowing _ _ _ _ I).
  destruct (rf_paused st) eqn:P; [|reflexivity]. pose proof (iv_paused _ _ _ _ I P) as Q. unfold limit in Q. lia.
Qed.
(* Receiving is only paused by data that fills the buffer up to read_limit, and only resumed when
   half of it is left or when a read waits for data. *)
Theorem C104_hysteresis : forall read_limit ls st l st', flow_run read_limit flow_init ls = Some st -> flow_step read_limit st l = Some st' ->
  (rf_flowing st = true -> rf_flowing st' = false -> (exists data, l = FlReceive data) /\ read_limit <= lenN (rf_buffer st')) /\
  (rf_flowing st = false -> rf_flowing st' = true -> lenN (rf_buffer st') <= read_limit / 2 \/ rf_waiter st' = true).
Proof.
  intros read_limit ls st l st' R S. destruct (reach_invariant _ _ _ R) as (p & z & I). pose proof (iv_flowing _ _ _ _ I) as F. clear R.
  assert (H2 : read_limit < 2 * limit read_limit + 2) by (unfold limit; pose proof (N.mod_lt read_limit 2); pose proof (N.div_mod read_limit 2); lia).
  assert (A : forall r, (rf_flowing st = true -> rf_flowing (attempt read_limit r st) = true) /\
    (rf_flowing st = false -> rf_flowing (attempt read_limit r st) = true -> lenN (rf_buffer (attempt read_limit r st)) <= read_limit / 2 \/ rf_waiter (attempt read_limit r st) = true)).
  { assert (Fi : forall r n, (rf_flowing st = true -> rf_flowing (finish read_limit r n st) = true) /\
      (rf_flowing st = false -> rf_flowing (finish read_limit r n st) = true -> lenN (rf_buffer (finish read_limit r n st)) <= read_limit / 2 \/ rf_waiter (finish read_limit r n st) = true)).
    { intros r n. unfold finish. generalize (skipn n (rf_buffer st)). intros bu. cbn [rf_flowing rf_buffer rf_waiter]. destruct (N.leb_spec (lenN bu) (limit read_limit)) as [H|H]; destruct (rf_paused st); cbn [andb negb] in *;
        split; intros; try congruence. now left. }
    assert (Wa : forall r, (rf_flowing st = true -> rf_flowing (wait_for_data r st) = true) /\
      (rf_flowing st = false -> rf_flowing (wait_for_data r st) = true -> lenN (rf_buffer (wait_for_data r st)) <= read_limit / 2 \/ rf_waiter (wait_for_data r st) = true)).
    { intros r. unfold wait_for_data. cbn. split; [intros E; rewrite E; now destruct (rf_paused st)|]. now right. }
    intros r. unfold attempt. destruct r as [n|].
    - destruct (n =? 0); [cbn; split; congruence|]. destruct (_ <? n); [apply Wa|apply Fi].
    - destruct (find_lf _); [apply Fi|]. destruct (_ <? _); [apply Fi|apply Wa]. }
  destruct l as [data|r|]; cbn [flow_step] in S.
  - destruct (rf_flowing st) eqn:Fl; [|discriminate]. apply some_inj in S as <-. split; [|discriminate]. intros _ H. split; [eauto|].
    destruct data as [|d0 d]; [cbn in H; congruence|]. unfold feed_data in *. cbn [rf_flowing rf_buffer] in *.
    destruct (negb (rf_paused st)); cbn [andb] in H; [|congruence].
    destruct (N.ltb_spec (2 * limit read_limit) (lenN (rf_buffer st ++ d0 :: d))) as [Q|Q]; [lia|congruence].
  - destruct (rf_reading st); [discriminate|]. apply some_inj in S as <-. destruct (A r) as [A1 A2]. split; [intros E H; specialize (A1 E); congruence|exact A2].
  - destruct (rf_reading st) as [r|]; [|discriminate]. destruct (rf_waiter st); [discriminate|]. apply some_inj in S as <-. destruct (A r) as [A1 A2]. split; [intros E H; specialize (A1 E); congruence|exact A2].
Qed.
Lemma waiting_short read_limit ls st : flow_run read_limit flow_init ls = Some st ->
  rf_waiter st = true -> forall n, rf_reading st = Some (ReadExactly n) -> lenN (rf_buffer st) < n.
Proof.
    intros R. revert R. assert (G0 : rf_waiter flow_init = true -> forall n, rf_reading flow_init = Some (ReadExactly n) -> lenN (rf_buffer flow_init) < n) by discriminate.
    revert G0. generalize flow_init. induction ls as [|l ls IH]; intros s0 G0 R; cbn [flow_run] in R; [now apply some_inj in R as <-|].
    destruct (flow_step read_limit s0 l) as [s1|] eqn:S; [|discriminate]. apply (IH s1); [|exact R]. clear IH R.
    assert (A : forall r, rf_waiter (attempt read_limit r s0) = true -> forall n, rf_reading (attempt read_limit r s0) = Some (ReadExactly n) -> lenN (rf_buffer (attempt read_limit r s0)) < n).
    { intros r _ n. unfold attempt. destruct r as [k|].
      - destruct (k =? 0); [discriminate|]. destruct (N.ltb_spec (lenN (rf_buffer s0)) k) as [H|H]; [|discriminate]. cbn. intros E. now injection E as <-.
      - destruct (find_lf (rf_buffer s0)); [discriminate|]. destruct (_ <? _); discriminate. }
    destruct l as [data|r|]; cbn [flow_step] in S.
    - destruct (rf_flowing s0); [|discriminate]. apply some_inj in S as <-. destruct data; [exact G0|discriminate].
    - destruct (rf_reading s0); [discriminate|]. apply some_inj in S as <-. apply A.
    - destruct (rf_reading s0); [|discriminate]. destruct (rf_waiter s0); [discriminate|]. apply some_inj in S as <-. apply A.
Qed.
(* A read doesn't wait when the data that it needs is buffered: it ends, or data is missing. *)
Theorem C104_waits : forall read_limit ls st n, flow_run read_limit flow_init ls = Some st ->
  rf_reading st = Some (ReadExactly n) -> (n <= lenN (rf_buffer st)) -> exists st', flow_step read_limit st FlWake = Some st' /\ rf_reading st' = None.
Proof.
  intros read_limit ls st n R E H.
  pose proof (waiting_short _ _ _ R) as G.
  cbn [flow_step]. rewrite E. destruct (rf_waiter st) eqn:W; [specialize (G eq_refl n E); lia|]. eexists. split; [reflexivity|].
  unfold attempt. destruct (n =? 0); [reflexivity|]. destruct (N.ltb_spec (lenN (rf_buffer st)) n); [lia|reflexivity].
Qed.

(* A read of any size ends when enough data arrives, in pieces of any size, each of which wakes it up:
   pausing the transport can't block it. *)
Definition arrival (pieces : list bytes) : list flow_label := concat (map (fun data => [FlReceive data; FlWake]) pieces).
Theorem C104_progress : forall read_limit ls st n pieces, flow_run read_limit flow_init ls = Some st ->
  rf_reading st = Some (ReadExactly n) -> rf_waiter st = true -> Forall (fun data => data <> []) pieces ->
  n <= lenN (rf_buffer st) + lenN (concat pieces) ->
  exists used rest st', pieces = used ++ rest /\ flow_run read_limit st (arrival used) = Some st' /\ rf_reading st' = None.
Proof.
  intros read_limit ls st n pieces R E W Np L. destruct (reach_invariant _ _ _ R) as (p & z & I). pose proof (iv_flowing _ _ _ _ I) as F. pose proof (iv_waiter _ _ _ _ I W) as [Fl _].
  pose proof (waiting_short _ _ _ R W n E) as Sh. clear I R p z. revert st E W L F Fl Sh. induction Np as [|data pieces Nd Np IH]; intros st E W L F Fl Sh.
  - cbn [concat] in L. unfold lenN in *. cbn [length] in L. lia.
  - set (st1 := feed_data read_limit data st).
    assert (B1 : rf_buffer st1 = rf_buffer st ++ data /\ rf_waiter st1 = false /\ rf_reading st1 = Some (ReadExactly n) /\ rf_flowing st1 = negb (rf_paused st1)).
    { unfold st1, feed_data. destruct data as [|d0 d]; [congruence|]. cbn [rf_buffer rf_waiter rf_reading rf_flowing rf_paused]. rewrite F. now destruct (rf_paused st), (_ <? _). }
    destruct B1 as (B1 & W1 & E1 & F1).
    assert (S : forall rest, flow_run read_limit st (arrival (data :: rest)) = flow_run read_limit (attempt read_limit (ReadExactly n) st1) (arrival rest)).
    { intros rest. unfold arrival. cbn [map concat app flow_run flow_step]. rewrite Fl. fold st1. now rewrite E1, W1. }
    assert (A : lenN (rf_buffer st ++ data) = lenN (rf_buffer st) + lenN data) by (unfold lenN; rewrite app_length; lia).
    assert (C : lenN (concat (data :: pieces)) = lenN data + lenN (concat pieces)) by (unfold lenN; cbn [concat]; rewrite app_length; lia).
    unfold attempt in S. rewrite (proj2 (N.eqb_neq n 0)) in S by lia. rewrite B1 in S.
    destruct (N.ltb_spec (lenN (rf_buffer st ++ data)) n) as [H|H].
    + destruct (IH (wait_for_data (ReadExactly n) st1)) as (used & rest & st' & -> & R & Q); cbn [wait_for_data rf_buffer rf_waiter rf_reading rf_flowing rf_paused]; try reflexivity.
      * rewrite B1. lia.
      * rewrite F1. now destruct (rf_paused st1).
      * rewrite F1. now destruct (rf_paused st1).
      * rewrite B1. exact H.
      * exists (data :: used), rest, st'. split; [reflexivity|]. split; [now rewrite S|exact Q].
    + exists [data], pieces. eexists. split; [reflexivity|]. split; [rewrite S; reflexivity|reflexivity].
Qed.

(* The data received in an execution *)
Definition received (l : flow_label) : bytes := match l with FlReceive data => data | _ => [] end.
(* What a call may give: n bytes; a line; or more than half of read_limit without LF, with ValueError *)
Definition proper (read_limit : N) (x : reading * bytes) : Prop :=
  match fst x with
  | ReadExactly n => lenN (snd x) = n
  | ReadLine => (exists l, snd x = l ++ [n2b 10] /\ ~ In (n2b 10) l) \/ (~ In (n2b 10) (snd x) /\ read_limit / 2 < lenN (snd x))
  end.
(* Nothing is lost, duplicated or reordered: the calls give the data received, in order, and the
   rest is buffered. *)
Theorem C104_content : forall read_limit ls st, flow_run read_limit flow_init ls = Some st ->
  concat (map snd (rf_got st)) ++ rf_buffer st = concat (map received ls) /\ Forall (proper read_limit) (rf_got st).
Proof.
  intros read_limit ls st R.
  assert (Fi : forall r n s0, concat (map snd (rf_got (finish read_limit r n s0))) ++ rf_buffer (finish read_limit r n s0) = concat (map snd (rf_got s0)) ++ rf_buffer s0).
  { intros r n s0. unfold finish. cbn [rf_got rf_buffer]. rewrite map_app, concat_app. cbn [map concat snd]. rewrite app_nil_r, <- app_assoc, firstn_skipn. reflexivity. }
  assert (A : forall r s0, (concat (map snd (rf_got (attempt read_limit r s0))) ++ rf_buffer (attempt read_limit r s0) = concat (map snd (rf_got s0)) ++ rf_buffer s0) /\
    (Forall (proper read_limit) (rf_got s0) -> Forall (proper read_limit) (rf_got (attempt read_limit r s0)))).
  { intros r s0. unfold attempt. destruct r as [n|].
    - destruct (N.eqb_spec n 0) as [->|N0]; [|destruct (N.ltb_spec (lenN (rf_buffer s0)) n) as [H|H]].
      + cbn [rf_got rf_buffer]. rewrite map_app, concat_app. cbn [map concat snd]. rewrite !app_nil_r. split; [reflexivity|]. intros F. apply Forall_app. split; [exact F|]. constructor; [reflexivity|constructor].
      + split; [reflexivity|auto].
      + split; [apply Fi|]. intros F. cbn [finish rf_got]. apply Forall_app. split; [exact F|]. constructor; [|constructor]. cbn. unfold lenN in *. rewrite firstn_length. lia.
    - destruct (find_lf (rf_buffer s0)) as [i|] eqn:E; [|destruct (N.ltb_spec (limit read_limit) (lenN (rf_buffer s0))) as [H|H]].
      + split; [apply Fi|]. intros F. cbn [finish rf_got]. apply Forall_app. split; [exact F|]. constructor; [|constructor]. cbn. left.
        apply find_lf_some in E as (l & rest & E & N & <-). rewrite E. exists l. split; [|exact N]. rewrite firstn_app_2. reflexivity.
      + split; [apply Fi|]. intros F. cbn [finish rf_got]. apply Forall_app. split; [exact F|]. constructor; [|constructor]. cbn. right. rewrite firstn_all. split; [now apply find_lf_none|exact H].
      + split; [reflexivity|auto]. }
  assert (G : forall s0, flow_run read_limit s0 ls = Some st ->
    concat (map snd (rf_got st)) ++ rf_buffer st = (concat (map snd (rf_got s0)) ++ rf_buffer s0) ++ concat (map received ls) /\
    (Forall (proper read_limit) (rf_got s0) -> Forall (proper read_limit) (rf_got st))).
  { clear R. induction ls as [|l ls IH]; intros s0 R; cbn [flow_run] in R; [apply some_inj in R as <-; cbn; rewrite app_nil_r; auto|].
    destruct (flow_step read_limit s0 l) as [s1|] eqn:S; [|discriminate]. destruct (IH s1 R) as [H1 H2]. rewrite H1. clear IH H1 R. cbn [map concat]. rewrite (app_assoc _ (received l)).
    destruct l as [data|r|]; cbn [flow_step received] in *.
    - destruct (rf_flowing s0); [|discriminate]. apply some_inj in S as <-. destruct data as [|d0 d]; [rewrite app_nil_r; auto|]. cbn [feed_data rf_got rf_buffer] in *. rewrite <- !app_assoc. auto.
    - destruct (rf_reading s0); [discriminate|]. apply some_inj in S as <-. destruct (A r s0) as [A1 A2]. rewrite A1, app_nil_r. auto.
    - destruct (rf_reading s0) as [r|]; [|discriminate]. destruct (rf_waiter s0); [discriminate|]. apply some_inj in S as <-. destruct (A r s0) as [A1 A2]. rewrite A1, app_nil_r. auto. }
  destruct (G _ R) as [G1 G2]. split; [exact G1|]. apply G2. constructor.
Qed.

(* read_limit = 4: 6 bytes pause the transport; a read of 8 bytes resumes it; then it's paused by
   the next bytes until 2 remain. *)
Example C104_applies :
  let six := repeat (n2b 97) 6 in
  let state ls := option_map (fun st => (lenN (rf_buffer st), rf_flowing st, rf_waiter st)) (flow_run 4 flow_init ls) in
  state [FlReceive six] = Some (6, false, false) /\
  state [FlReceive six; FlReceive six] = None /\
  state [FlReceive six; FlRead (ReadExactly 8)] = Some (6, true, true) /\
  state [FlReceive six; FlRead (ReadExactly 8); FlReceive six] = Some (12, false, false) /\
  state [FlReceive six; FlRead (ReadExactly 8); FlReceive six; FlWake] = Some (4, false, false) /\
  state [FlReceive six; FlRead (ReadExactly 8); FlReceive six; FlWake; FlRead (ReadExactly 2)] = Some (2, true, false) /\
  option_map rf_got (flow_run 4 flow_init [FlRead ReadLine; FlReceive [n2b 97]; FlWake; FlReceive [n2b 10; n2b 98]; FlWake; FlRead (ReadExactly 1)]) =
    Some [(ReadLine, [n2b 97; n2b 10]); (ReadExactly 1, [n2b 98])].
Proof. repeat split; vm_compute; reflexivity. Qed.

Print Assumptions C104_bounded.
Print Assumptions C104_no_deadlock.
Print Assumptions C104_pauses.
Print Assumptions C104_resumes.
Print Assumptions C104_hysteresis.
Print Assumptions C104_waits.
Print Assumptions C104_progress.
Print Assumptions C104_content.
