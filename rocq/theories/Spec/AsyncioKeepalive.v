(* Vocabulary for the properties of keepalive pings (legacy/protocol.py, keepalive_ping). *)
From Verif Require Import Base.Prelude Spec.Rfc6455 Spec.Asyncio Model.Frames Model.LegacyFraming Model.LegacyProtocol.
Local Open Scope N_scope.

Section Keepalive.
Context {E : Type} (X : ext_ops E) (cfg : config).
Implicit Type st : conn E.

(* P holds of each step of an execution. *)
Fixpoint along (P : conn E -> label -> Prop) st (ls : list label) : Prop :=
  match ls with
  | [] => True
  | l :: ls => P st l /\ match step X cfg st l with Some st' => along P st' ls | None => False end
  end.

(* The connection is open and frames are read: send() and recv() work. *)
Definition usable st : Prop := p_state st = Open /\ T_done st = false.

(* keepalive_ping runs as soon as what it waits for is complete, or the timeout fires: time doesn't pass
   when it could run. *)
Definition keepalive_ready st : Prop :=
  exists l, (l = LK Go \/ l = LK Timeout \/ exists r, l = LK (GoRand r)) /\ step X cfg st l <> None.
Definition on_time st (l : label) : Prop :=
  forall d, l = LTick d -> forall x, x < d -> ~ keepalive_ready (set_now (p_now st + x) st).

(* The transport accepts the pings of keepalive_ping at once: nothing happens between the moment when the
   ping is written and the moment when drain() returns. *)
Definition flushed_at_once st (l : label) : Prop :=
  forall data, p_K st = KPingDrain data -> l = LK DrainOk.

(* random.getrandbits(32) can find an identifier that no pending ping uses. *)
Definition few_pings st (l : label) : Prop := lenN (p_pings st) < 2 ^ 32.

(* Extensions leave control frames alone: RFC 6455 section 5.4 and RFC 7692 section 6.1 *)
Definition accepts_control : Prop :=
  forall e f, is_ctrl (f_opcode f) = true -> exists e', ext_encode X e f = (e', Ok f).

(* st' is st, after frames fs were read *)
Definition read_between st (fs : list frame) (st' : conn E) : Prop := p_in st' = p_in st ++ fs.
End Keepalive.
