(* Properties of keepalive pings in the asyncio API (C78). *)
From Verif Require Import Base.Prelude Base.PreludeFacts Model.Streams Model.Frames
  Model.LegacyFraming Model.LegacyProtocol Spec.Rfc6455 Spec.Asyncio Spec.AsyncioKeepalive
  Proofs.LegacyPrims Proofs.LegacyFields Proofs.LegacyShapes Proofs.LegacyUsers Proofs.LegacyClose
  Proofs.LegacyKeepalive Properties.FrameCodec Properties.AsyncioState.
Local Open Scope N_scope.

(* ---- C78 ---- *)

(* If no pong is received for longer than ping_interval + ping_timeout, the connection isn't usable any
   more.  Missing: executions where the write buffer is full when a keepalive ping is sent; see below. *)
Theorem C78_dead_peer_partial :
  forall E (X : ext_ops E) cfg exts I T ls1 s1 ls2 s2 fs,
    c_ping_interval cfg = Some I -> c_ping_timeout cfg = Some T ->
    accepts_control X -> (forall n, length (c_key cfg n) = 4%nat) ->
    execution X cfg exts ls1 s1 -> exec X cfg s1 ls2 = Some s2 ->
    along X cfg (on_time X cfg) (initial exts) (ls1 ++ ls2) ->
    along X cfg flushed_at_once (initial exts) (ls1 ++ ls2) ->
    along X cfg few_pings (initial exts) (ls1 ++ ls2) ->
    p_state s1 = Open -> usable s2 ->
    read_between s1 fs s2 -> Forall (fun f => f_opcode f <> PONG) fs ->
    p_now s2 <= p_now s1 + I + T.
Proof.
  intros E X cfg exts I T ls1 s1 ls2 s2 fs CI CT AC Keys H1 H2 A1 A2 A3 O U Rb NP.
  pose proof (along_and X cfg _ _ _ _ A1 (along_and X cfg _ _ _ _ A2 A3)) as A.
  change (along X cfg (Ok_step X cfg) (initial exts) (ls1 ++ ls2)) in A.
  apply along_app in A as [A A']. specialize (A' s1 H1).
  assert (Iv : Inv I T s1).
  { apply (along_steps X cfg (Inv I T) (Ok_step X cfg) (initial exts) ls1); auto; [|apply Inv_initial].
    intros. eapply Inv_step; eauto. }
  assert (N : p_state s1 <> Connecting) by congruence.
  assert (U1 : usable s1) by (apply (usable_exec X cfg s1 ls2 s2); auto; apply Iv).
  assert (Iv2 : Inv I T s2).
  { apply (along_steps X cfg (Inv I T) (Ok_step X cfg) s1 ls2); auto. intros. eapply Inv_step; eauto. }
  eapply Before_now; [eassumption|exact Iv2|exact U|].
  apply (Before_exec X cfg AC Keys I T CI CT _ s1 ls2 s2); auto.
  - intros fs' Q. unfold read_between in Rb. rewrite Rb in Q. apply app_inv_head in Q. now subst fs'.
  - now apply (Before_start cfg).
Qed.

(* When it happens, the connection is failed with code 1011. *)
Theorem C78_code_1011 :
  forall E (X : ext_ops E) cfg exts ls s1 s2,
    accepts_control X -> (forall n, length (c_key cfg n) = 4%nat) ->
    execution X cfg exts ls s1 -> usable s1 -> step X cfg s1 (LK Timeout) = Some s2 ->
    p_state s2 = Closing /\
    exists x, p_out s2 = p_out s1 ++ [x] /\ o_frame x = mkframe true CLOSE (bs [3; 243]).
Proof.
  intros E X cfg exts ls s1 s2 AC Keys H U S1. cbn [step] in S1. unfold step_K in S1.
  assert (Kc : p_Kcancel s1 = false).
  { apply (usable_Kcancel); [|exact U]. apply (exec_steps X cfg Kinv (initial exts) ls); auto; [|apply Kinv_initial].
    intros. eapply Kinv_step; eauto. }
  rewrite Kc in S1.
  destruct (p_K s1) as [| |d|data| |w d|]; try discriminate. destruct (_ <=? _); [|discriminate].
  destruct (fail_1011 X cfg AC Keys s1 (proj1 U)) as (st2 & w2 & E2 & S2 & O2). rewrite E2 in S1.
  apply some_inj in S1 as <-. split; [exact S2|]. eexists. split; [exact O2|]. reflexivity.
Qed.

(* It doesn't happen unless a ping was sent at least ping_timeout earlier, and no matching pong was
   received in less than ping_timeout. *)
Theorem C78_no_false_alarm :
  forall E (X : ext_ops E) cfg exts T ls s1 s2,
    c_ping_timeout cfg = Some T ->
    execution X cfg exts ls s1 ->
    along X cfg (on_time X cfg) (initial exts) ls -> along X cfg flushed_at_once (initial exts) ls ->
    step X cfg s1 (LK Timeout) = Some s2 ->
    exists before data after sa sb x,
      ls = before ++ LK (GoRand data) :: after /\
      execution X cfg exts before sa /\ step X cfg sa (LK (GoRand data)) = Some sb /\
      p_out sb = p_out sa ++ [x] /\ o_frame x = mkframe true PING data /\
      p_now sb + T <= p_now s1 /\
      forall ls1 ls2 sc fs, after = ls1 ++ ls2 -> exec X cfg sb ls1 = Some sc ->
        p_now sc < p_now sb + T -> read_between sb fs sc ->
        Forall (fun f => ~ (f_opcode f = PONG /\ f_data f = data)) fs.
Proof.
  intros E X cfg exts T ls s1 s2 CT H A1 A2 S1.
  pose proof (Alarm_exec X cfg T CT exts ls s1 H (along_and X cfg _ _ _ _ A1 A2)) as A.
  cbn [step] in S1. unfold step_K in S1. unfold Alarm in A.
  destruct (p_K s1) as [| |d|data| |w d|]; try discriminate; (destruct (p_Kcancel s1); [discriminate|]); try discriminate.
  destruct (N.leb_spec d (p_now s1)) as [L|]; [|discriminate].
  destruct A as (la & lb & r & sb & (P1 & P2 & sa & x & P3 & P4 & P5 & P6) & Hd & _ & A).
  destruct A as [[Si _]|[_ A]]; [|lia].
  exists la, r, lb, sa, sb, x. split; [exact P1|]. split; [exact P3|]. split; [exact P4|]. split; [exact P5|].
  split; [exact P6|]. split; [lia|]. intros ls1 ls2 sc fs Q1 Q2 Q3 Q4. exact (Si ls1 ls2 sc Q1 Q2 Q3 fs Q4).
Qed.

(* A way to check the hypotheses on examples *)
Definition checked_tick (st : conn Empty_set) (d : N) : bool :=
  (d =? 0) ||
  (negb (p_Kcancel st) &&
   match p_K st with
   | KSleep e => p_now st + d <=? e
   | KPong w e => (p_now st + d <=? e) && negb (fut_done (get_fut (p_pongs st) w))
   | KPingDrain _ => true
   | KNone | KDone => true
   | _ => false
   end).
Lemma checked_tick_on_time cfg st d : checked_tick st d = true -> on_time no_ext cfg st (LTick d).
Proof.
  unfold checked_tick. intros C d' Q. injection Q as <-. intros x Lx R.
  apply Bool.orb_prop in C as [C|C]; [apply N.eqb_eq in C; lia|].
  apply andb_prop in C as [C1 C2]. apply Bool.negb_true_iff in C1.
  destruct R as (l & Hl & R). apply R. clear R.
  assert (Q : l = LK Go \/ l = LK Timeout \/ exists r, l = LK (GoRand r)) by exact Hl. clear Hl.
  assert (G : forall a, l = LK a -> match a with Go | Timeout | GoRand _ => True | _ => False end ->
    step no_ext cfg (set_now (p_now st + x) st) l = None).
  { intros a -> Ha. cbn [step]. unfold step_K. change (p_K (set_now _ st)) with (p_K st).
    change (p_Kcancel (set_now _ st)) with (p_Kcancel st). rewrite C1.
    destruct (p_K st) as [| |e|data| |w e|]; try reflexivity; try discriminate.
    - apply N.leb_le in C2. destruct a; try reflexivity. cbn [p_now set_now].
      destruct (N.leb_spec e (p_now st + x)); [lia|reflexivity].
    - destruct a; try reflexivity; contradiction.
    - apply andb_prop in C2 as [C2 C3]. apply N.leb_le in C2. apply Bool.negb_true_iff in C3. destruct a; try reflexivity.
      + change (p_pongs (set_now _ st)) with (p_pongs st). destruct (get_fut _ _); try reflexivity; discriminate.
      + cbn [p_now set_now]. destruct (N.leb_spec e (p_now st + x)); [lia|reflexivity]. }
  destruct Q as [Q|[Q|(r & Q)]]; apply (G _ Q); exact Logic.I.
Qed.
Definition checked (st : conn Empty_set) (l : label) : bool :=
  match l with LTick d => checked_tick st d | _ => true end &&
  match p_K st, l with KPingDrain _, LK DrainOk => true | KPingDrain _, _ => false | _, _ => true end &&
  (lenN (p_pings st) <? 2 ^ 32).
Fixpoint all_checked cfg st (ls : list label) (P : conn Empty_set -> bool) : bool :=
  match ls with
  | [] => P st
  | l :: ls => checked st l && match step no_ext cfg st l with Some st' => all_checked cfg st' ls P | None => false end
  end.
Lemma all_checked_along cfg st ls P : all_checked cfg st ls P = true ->
  exists st', exec no_ext cfg st ls = Some st' /\ P st' = true /\
  along no_ext cfg (on_time no_ext cfg) st ls /\ along no_ext cfg flushed_at_once st ls /\
  along no_ext cfg few_pings st ls.
Proof.
  revert st. induction ls as [|l ls IH]; cbn [all_checked exec along]; intros st H.
  - exists st. repeat split; auto.
  - apply andb_prop in H as [H1 H2]. destruct (step no_ext cfg st l) as [st1|]; [|discriminate].
    destruct (IH st1 H2) as (st' & E1 & E2 & E3 & E4 & E5). exists st'.
    unfold checked in H1. apply andb_prop in H1 as [H1 H3]. apply andb_prop in H1 as [H1 H4].
    split; [exact E1|]. split; [exact E2|]. split; [split; [|exact E3]|split; split; try assumption].
    + destruct l; try (intros d' Q; discriminate). now apply checked_tick_on_time.
    + intros data Q. rewrite Q in H4. destruct l as [| | | | | | | | | |[]| |]; try discriminate. reflexivity.
    + now apply N.ltb_lt in H3.
Qed.

Definition ping_id : bytes := bs [7; 8; 9; 10].
Definition open_conn (st : conn Empty_set) : bool := is_open (p_state st) && negb (T_done st).
Lemma open_conn_usable st x : open_conn st = true -> usable (set_now x st).
Proof.
  intros K. change (p_state st = Open /\ T_done st = false). unfold open_conn in K. apply andb_prop in K as [K1 K2].
  split; [destruct (p_state st); (reflexivity || discriminate)|now apply Bool.negb_true_iff].
Qed.

(* The pong of the first ping is received at time 25; the second ping is sent at time 45; the connection is
   still usable at time 65, i.e. 40 later. *)
Example C78_dead_peer_applies :
  exists s1 s2,
    let ls1 := [LOpen; LK Go; LTick 20; LK (GoRand ping_id); LK DrainOk; LTick 5;
                LData (bs [138; 4; 7; 8; 9; 10]); LT Go] in
    let ls2 := [LK Go; LTick 20; LK (GoRand ping_id); LK DrainOk; LData (bs [130; 1; 97]); LT Go; LTick 20] in
    execution no_ext ex_config [] ls1 s1 /\ exec no_ext ex_config s1 ls2 = Some s2 /\
    (p_now s1 =? 25) && open_conn s1 = true /\ (p_now s2 =? 65) && open_conn s2 && (length (p_in s2) =? 2)%nat = true /\
    along no_ext ex_config (on_time no_ext ex_config) (initial []) (ls1 ++ ls2) /\
    along no_ext ex_config flushed_at_once (initial []) (ls1 ++ ls2) /\
    along no_ext ex_config few_pings (initial []) (ls1 ++ ls2).
Proof.
  set (ls1 := [LOpen; _; _; _; _; _; _; _]). set (ls2 := [LK Go; _; _; _; _; _; _]). cbv zeta.
  assert (A : exists st, exec no_ext ex_config (initial []) ls1 = Some st /\ (p_now st =? 25) && open_conn st = true).
  { apply by_executing. vm_compute. reflexivity. }
  destruct A as (s1 & A1 & A2).
  destruct (all_checked_along ex_config (initial []) (ls1 ++ ls2)
    (fun st => (p_now st =? 65) && open_conn st && (length (p_in st) =? 2)%nat)) as (s2 & B1 & B2 & B3).
  { vm_compute. reflexivity. }
  exists s1, s2. rewrite exec_app, A1 in B1. split; [exact A1|]. split; [exact B1|]. split; [exact A2|].
  split; [exact B2|]. exact B3.
Qed.
Example C78_assumptions_apply : accepts_control no_ext /\ forall n, length (c_key ex_config n) = 4%nat.
Proof. split; [intros []|reflexivity]. Qed.
(* the ping is sent at time 20 and isn't answered *)
Example C78_code_1011_applies :
  exists st, exec no_ext ex_config (initial [])
      [LOpen; LK Go; LTick 20; LK (GoRand ping_id); LK DrainOk; LTick 20] = Some st /\
    (open_conn st && match step no_ext ex_config st (LK Timeout) with Some _ => true | None => false end) = true /\
    along no_ext ex_config (on_time no_ext ex_config) (initial [])
      [LOpen; LK Go; LTick 20; LK (GoRand ping_id); LK DrainOk; LTick 20] /\
    along no_ext ex_config flushed_at_once (initial [])
      [LOpen; LK Go; LTick 20; LK (GoRand ping_id); LK DrainOk; LTick 20] /\
    along no_ext ex_config few_pings (initial [])
      [LOpen; LK Go; LTick 20; LK (GoRand ping_id); LK DrainOk; LTick 20].
Proof. apply all_checked_along. vm_compute. reflexivity. Qed.

(* When the write buffer is full, keepalive_ping waits for as long as the peer doesn't read: ping_timeout
   counts from the moment when the ping is flushed. *)
Theorem C78_write_buffer_refuted :
  forall t, exists st,
    execution no_ext ex_config [] ([LOpen; LK Go; LTick 20; LK (GoRand ping_id)] ++ [LTick t]) st /\
    along no_ext ex_config (on_time no_ext ex_config) (initial [])
      ([LOpen; LK Go; LTick 20; LK (GoRand ping_id)] ++ [LTick t]) /\
    usable st /\ p_now st = 20 + t /\ p_in st = [].
Proof.
  intros t.
  destruct (all_checked_along ex_config (initial []) [LOpen; LK Go; LTick 20; LK (GoRand ping_id)]
    (fun st => (p_now st =? 20) && open_conn st && match p_in st with [] => true | _ => false end &&
       negb (p_Kcancel st) && match p_K st with KPingDrain _ => true | _ => false end)) as (st & H1 & H2 & H3 & _).
  { vm_compute. reflexivity. }
  repeat (apply andb_prop in H2 as [H2 ?]).
  exists (set_now (p_now st + t) st). unfold execution. rewrite exec_app, H1. split; [reflexivity|].
  assert (HI : p_in st = []) by (destruct (p_in st); [reflexivity|discriminate]).
  apply N.eqb_eq in H2. split.
  - apply along_app. split; [exact H3|]. intros st' Q. rewrite H1 in Q. apply some_inj in Q as <-.
    split; [|exact Logic.I]. apply checked_tick_on_time. unfold checked_tick.
    destruct (p_K st); try discriminate. match goal with K : negb _ = true |- _ => rewrite K end. apply Bool.orb_true_r.
  - split; [|split; [cbn [p_now set_now]; lia|exact HI]]. apply open_conn_usable; assumption.
Qed.

(* If the pong is received while ping() waits until the write buffer is flushed, ping() raises KeyError and
   keepalive_ping ends: nothing detects that the peer is dead any more. *)
Theorem C78_early_pong_refuted :
  forall t, exists st,
    execution no_ext ex_config [] ([LOpen; LK Go; LTick 20; LK (GoRand ping_id);
      LData (bs [138; 4; 7; 8; 9; 10]); LT Go; LK DrainOk] ++ [LTick t]) st /\
    usable st /\ p_K st = KDone /\ p_now st = 20 + t /\
    forall a, step no_ext ex_config st (LK a) = None.
Proof.
  intros t.
  destruct (by_executing ex_config [LOpen; LK Go; LTick 20; LK (GoRand ping_id);
      LData (bs [138; 4; 7; 8; 9; 10]); LT Go; LK DrainOk]
    (fun st => (p_now st =? 20) && open_conn st && match p_K st with KDone => true | _ => false end)) as (st & H1 & H2).
  { vm_compute. reflexivity. }
  repeat (apply andb_prop in H2 as [H2 ?]).
  exists (set_now (p_now st + t) st). unfold execution in *. rewrite exec_app, H1. split; [reflexivity|].
  apply N.eqb_eq in H2. assert (HK : p_K st = KDone) by (destruct (p_K st); (reflexivity || discriminate)).
  split; [apply open_conn_usable; assumption|]. split; [exact HK|].
  split; [cbn [p_now set_now]; lia|]. intros a. cbn [step]. unfold step_K. change (p_K (set_now _ st)) with (p_K st). now rewrite HK.
Qed.

Print Assumptions C78_dead_peer_partial.
Print Assumptions C78_code_1011.
Print Assumptions C78_no_false_alarm.
Print Assumptions C78_write_buffer_refuted.
Print Assumptions C78_early_pong_refuted.
