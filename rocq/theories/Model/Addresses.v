(* Model of the attributes local_address and remote_address of src/websockets/legacy/protocol.py
   371-399. *)
From Verif Require Import Base.Prelude.

(* The state of the connection, for these attributes; A is the type of addresses.
   an_transport: self.transport, which is set by connection_made (1374): the addresses of the
   socket, and whether it uses TLS (asyncio, Python 3.12) *)
Inductive phase : Type := PhaseConnecting | PhaseOpen | PhaseClosing | PhaseClosed.
Record transport_info (A : Type) : Type := { ti_sockname : A; ti_peername : A; ti_tls : bool }.
Arguments ti_sockname {A}. Arguments ti_peername {A}. Arguments ti_tls {A}.
Record named (A : Type) : Type := { an_transport : option (transport_info A); an_phase : phase; an_lost : bool }.
Arguments an_transport {A}. Arguments an_phase {A}. Arguments an_lost {A}.
Definition named_init {A} : named A := {| an_transport := None; an_phase := PhaseConnecting; an_lost := false |}.

(* connection_made (1355-1377), connection_open (334-349), the closing handshake, connection_lost (1379-1425) *)
Inductive named_event (A : Type) : Type := EvMade (t : transport_info A) | EvOpened | EvClosing | EvLost.
Arguments EvMade {A}. Arguments EvOpened {A}. Arguments EvClosing {A}. Arguments EvLost {A}.
(* The order in which asyncio and the connection make them; None if it's impossible *)
Definition named_step {A} (st : named A) (e : named_event A) : option (named A) :=
  match e, an_transport st, an_phase st with
  | EvMade t, None, PhaseConnecting => Some {| an_transport := Some t; an_phase := PhaseConnecting; an_lost := false |}
  | EvOpened, Some t, PhaseConnecting => Some {| an_transport := Some t; an_phase := PhaseOpen; an_lost := false |}
  | EvClosing, Some t, PhaseOpen => Some {| an_transport := Some t; an_phase := PhaseClosing; an_lost := false |}
  | EvLost, Some t, PhaseClosed => None
  | EvLost, Some t, _ => Some {| an_transport := Some t; an_phase := PhaseClosed; an_lost := true |}
  | _, _, _ => None
  end.
Fixpoint named_run {A} (st : named A) (es : list (named_event A)) : option (named A) :=
  match es with
  | [] => Some st
  | e :: es => match named_step st e with Some st => named_run st es | None => None end
  end.

(* transport.get_extra_info: asyncio/selector_events.py 781-790 keeps the addresses when the connection is
   lost; asyncio/sslproto.py 390-415 and 485-491 forgets the transport *)
Definition get_extra_info {A} (name : transport_info A -> A) (t : transport_info A) (lost : bool) : option A :=
  if ti_tls t && lost then None else Some (name t).
(* 371-384: local_address *)
Definition local_address {A} (st : named A) : option A :=
  match an_transport st with None => None | Some t => get_extra_info ti_sockname t (an_lost st) end.
(* 386-399: remote_address *)
Definition remote_address {A} (st : named A) : option A :=
  match an_transport st with None => None | Some t => get_extra_info ti_peername t (an_lost st) end.
