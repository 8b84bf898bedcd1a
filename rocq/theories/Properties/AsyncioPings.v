(* Pings are answered, in the asyncio API (C79). *)
From Verif Require Import Base.Prelude Base.PreludeFacts Model.Streams Model.Frames
  Model.LegacyFraming Model.LegacyProtocol Spec.Asyncio Spec.AsyncioKeepalive
  Proofs.LegacyClose Proofs.LegacyAnswers Properties.FrameCodec Properties.AsyncioState.
Local Open Scope N_scope.

(* ---- C79 ---- *)

(* Pongs are sent for the pings that were read, in the same order and with the same payloads.  While the
   connection is usable all pings that were read are answered; afterwards all of them but one, at most. *)
Theorem C79_pings_answered :
  forall E (X : ext_ops E) cfg exts ls st,
    execution X cfg exts ls st ->
    exists unanswered,
      pings_read st = pongs_sent st ++ unanswered /\ (length unanswered <= 1)%nat /\
      (usable st -> unanswered = []).
Proof.
  intros E X cfg exts ls st H. destruct (Answers_exec X cfg exts ls st H) as (A0 & A).
  destruct A as [A|(p & A & S0)].
  - exists []. rewrite app_nil_r. auto.
  - exists [p]. split; [exact A|]. split; [reflexivity|]. intros [O D]. exfalso.
    destruct S0 as [S0|S0]; [exact (A0 S0 O)|congruence].
Qed.

(* After a ping that isn't answered, nothing is read. *)
Theorem C79_nothing_read_after :
  forall E (X : ext_ops E) cfg exts ls1 s1 ls2 s2,
    execution X cfg exts ls1 s1 -> pings_read s1 <> pongs_sent s1 ->
    exec X cfg s1 ls2 = Some s2 -> p_in s2 = p_in s1.
Proof.
  intros E X cfg exts ls1 s1 ls2 s2 H1 N H2.
  destruct (Answers_exec X cfg exts ls1 s1 H1) as (_ & [A|(p & A & S0)]); [contradiction|].
  exact (proj2 (stops_exec X cfg exts ls1 s1 ls2 s2 H1 S0 H2)).
Qed.

(* Two pings are answered, one in the middle of a fragmented message, while a call to pong() is made. *)
Example C79_applies :
  exists st, execution no_ext ex_config []
    [LOpen; LData (bs [137; 1; 97; 1; 1; 98; 137; 2; 99; 100]); LT Go; LT DrainOk; LT Go;
     LCall (CallPong (PBytes (b "z"))); LUser 0 Go; LT Go] st /\
  match pings_read st, pongs_sent st, p_out st with
  | [x; y], [x'; y'], [_; _; _] => bytes_eqb x (b "a") && bytes_eqb y (b "cd") && bytes_eqb x x' && bytes_eqb y y'
  | _, _, _ => false
  end && is_open (p_state st) && negb (T_done st) = true.
Proof. apply by_executing. vm_compute. reflexivity. Qed.
(* The ping is read after close() was called. *)
Example C79_unanswered_applies :
  exists st, execution no_ext ex_config []
    [LOpen; LCall (CallClose 1000 []); LUser 0 Go; LData (bs [137; 1; 97]); LT Go] st /\
  match pings_read st, pongs_sent st with [x], [] => bytes_eqb x (b "a") | _, _ => false end = true.
Proof. apply by_executing. vm_compute. reflexivity. Qed.

Print Assumptions C79_pings_answered.
Print Assumptions C79_nothing_read_after.
