(* Vocabulary for comparing the sans-I/O connection and the asyncio connection. *)
From Verif Require Import Base.Prelude Base.Utf8 Spec.Utf8Spec Model.Frames Model.Connection Model.LegacyProtocol
  Spec.Messages Spec.Asyncio.

(* A sans-I/O connection on the same side of the connection, with the same limit, receives chunks of data:
   it's in state m afterwards, and rs is what the calls to receive_data() returned or raised. *)
Definition sans_io {E} (X : ext_ops E) (cfg : config) (keys : nat -> key4) (chunks : list bytes) (m : machine E) (rs : list ret) : Prop :=
  do_calls X (new_connection X (if c_client cfg then CLIENT else SERVER) OPEN (LegacyProtocol.c_max_size cfg) keys)
    (map CReceiveData chunks) = (m, rs).

(* One of the frames makes a text message something else than UTF-8, whatever follows. *)
Definition not_text (fs : list frame) : Prop :=
  exists before f later done rest,
    fs = before ++ f :: later /\ message_sequence before done rest /\ is_data f /\
    (exists first r, rest ++ [f] = first :: r /\ f_opcode first = TEXT) /\
    forall more, (final f -> more = []) -> ~ valid_utf8 (flat_map f_data (rest ++ [f]) ++ more).
