(* C106: addresses of a connection *)
From Verif Require Import Base.Prelude Base.PreludeFacts Model.Addresses.

Lemma run_view {A} (es : list (named_event A)) : forall st st' t, named_run st es = Some st' -> an_transport st = Some t ->
  (an_lost st = true <-> an_phase st = PhaseClosed) ->
  an_transport st' = Some t /\ (an_lost st' = true <-> an_phase st' = PhaseClosed) /\ (an_lost st' = true <-> an_lost st = true \/ In EvLost es).
Proof.
  induction es as [|e es IH]; intros st st' t R T L; cbn [named_run] in R.
  - apply some_inj in R as <-. cbn. tauto.
  - destruct (named_step st e) as [st1|] eqn:S; [|discriminate]. unfold named_step in S. rewrite T in S.
    destruct e as [t0| | |], (an_phase st) eqn:P; try discriminate S; apply some_inj in S; subst st1;
      (destruct (IH _ st' t R eq_refl) as (H1 & H2 & H3); [cbn; split; congruence|]); (split; [exact H1|]); (split; [exact H2|]); cbn [an_lost In] in *;
      rewrite H3; destruct L as [L1 L2]; split; intros [H|H]; auto; try discriminate H; try (specialize (L1 H); discriminate L1); destruct H as [H|H]; auto; discriminate H.
Qed.
(* Until the connection is lost, the addresses are those of the socket; over TCP, they stay available
   when it's lost. *)
Theorem C106_addresses : forall A (t : transport_info A) es st, named_run named_init (EvMade t :: es) = Some st ->
  ti_tls t = false \/ ~ In EvLost es -> local_address st = Some (ti_sockname t) /\ remote_address st = Some (ti_peername t).
Proof.
  intros A t es st R H. cbn [named_run named_step named_init an_transport an_phase] in R.
  destruct (run_view es _ st t R eq_refl) as (T & _ & L); [cbn; split; discriminate|]. cbn [an_lost] in L.
  unfold local_address, remote_address. rewrite T. unfold get_extra_info.
  assert (E : ti_tls t && an_lost st = false).
  { destruct H as [-> |H]; [reflexivity|]. destruct (an_lost st); [|apply andb_false_r]. destruct (proj1 L eq_refl); [discriminate|contradiction]. }
  rewrite E. auto.
Qed.
(* Before the socket is connected, there are none. *)
Theorem C106_before : forall A es (st : named A), named_run named_init es = Some st -> (forall t, ~ In (EvMade t) es) ->
  local_address st = None /\ remote_address st = None.
Proof.
  intros A [|e es] st R N; cbn [named_run] in R; [apply some_inj in R as <-; auto|].
  destruct e as [t| | |]; cbn in R; try discriminate. exfalso. apply (N t). now left.
Qed.
(* "When the connection isn't open, they are None": with TLS when the connection is lost, but not
   over TCP. *)
Theorem C106_lost_tls : forall A (t : transport_info A) es st, named_run named_init (EvMade t :: es) = Some st -> In EvLost es -> ti_tls t = true ->
  local_address st = None /\ remote_address st = None.
Proof.
  intros A t es st R I H. cbn [named_run named_step named_init an_transport an_phase] in R.
  destruct (run_view es _ st t R eq_refl) as (T & _ & L); [cbn; split; discriminate|]. unfold local_address, remote_address. rewrite T. unfold get_extra_info.
  rewrite H, (proj2 L (or_intror I)). auto.
Qed.
Theorem C106_not_open_refuted : forall A (t : transport_info A) es st, named_run named_init (EvMade t :: es) = Some st -> In EvLost es -> ti_tls t = false ->
  an_phase st = PhaseClosed /\ local_address st <> None /\ remote_address st <> None.
Proof.
  intros A t es st R I H. destruct (C106_addresses A t es st R (or_introl H)) as [-> ->]. split; [|split; discriminate].
  cbn [named_run named_step named_init an_transport an_phase] in R. destruct (run_view es _ st t R eq_refl) as (_ & P & L); [cbn; split; discriminate|].
  apply P, L. now right.
Qed.

Example C106_applies :
  let t tls := {| ti_sockname := s "127.0.0.1"; ti_peername := s "192.0.2.1"; ti_tls := tls |} in
  let all tls := [EvMade (t tls); EvOpened; EvClosing; EvLost] in
  option_map (fun st => (local_address st, remote_address st)) (named_run named_init (all false)) = Some (Some (s "127.0.0.1"), Some (s "192.0.2.1")) /\
  option_map (fun st => (local_address st, remote_address st)) (named_run named_init (all true)) = Some (None, None) /\
  option_map local_address (named_run named_init [EvMade (t true); EvOpened]) = Some (Some (s "127.0.0.1")).
Proof. repeat split; vm_compute; reflexivity. Qed.

Print Assumptions C106_addresses.
Print Assumptions C106_before.
Print Assumptions C106_lost_tls.
Print Assumptions C106_not_open_refuted.
