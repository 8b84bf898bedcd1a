(* Vocabulary for the properties of calls that never return (legacy/protocol.py). *)
From Verif Require Import Base.Prelude Base.Utf8 Spec.Asyncio Model.Frames Model.LegacyFraming Model.LegacyProtocol.
Local Open Scope N_scope.

Section Hang.
Context {E : Type} (X : ext_ops E) (cfg : config).
Implicit Type st : conn E.

(* A step of the library: a task of the connection or a call runs. *)
Definition progress (l : label) : Prop :=
  match l with LT _ | LK _ | LC _ | LUser _ _ => True | _ => False end.
Definition runs (l : label) : bool := match l with LT _ | LK _ | LC _ | LUser _ _ => true | _ => false end.
(* Nothing can run, now or later: what isn't done waits forever, unless the application or the peer does
   something. *)
Definition stuck st : Prop :=
  forall d l, progress l -> step X cfg (set_now (p_now st + d) st) l = None.

(* The i-th call returned a value or raised an exception. *)
Definition call_done st (i : nat) : Prop := exists r c, nth_error (p_users st) i = Some (UDone r, c).

(* recv() must be called before more messages can be received. *)
Definition queue_full st : Prop := exists n, c_max_queue cfg = Some n /\ n <= lenN (p_messages st).

(* close() is cancelled while it sends the Close frame. *)
Definition abandons st (l : label) : Prop :=
  exists i d t c, l = LCancel i /\ nth_error (p_users st) i = Some (UCloseWrite d t, c).
(* The reason given to close() fits in a Close frame. *)
Definition short_reason (l : label) : Prop :=
  forall code reason data, l = LCall (CallClose code reason) -> utf8_encode reason = Ok data -> lenN data <= 123.
(* What the transport reports when the connection is lost: nothing, or a ConnectionError *)
Definition ordinary_loss st : Prop := p_lost st = Some None \/ p_lost st = Some (Some ConnectionErr).
End Hang.
