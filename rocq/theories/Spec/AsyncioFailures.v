(* Vocabulary for what makes an endpoint of this library fail a connection to another one (asyncio API). *)
From Verif Require Import Base.Prelude Model.Streams Model.Frames Model.PermessageDeflate Model.LegacyFraming Model.LegacyProtocol
  Spec.Rfc6455 Spec.FrameSpec Spec.Messages Spec.Deflate Spec.Asyncio.
Local Open Scope N_scope.

(* One of the frames written is too big: with the frames of the message in progress, if any, it exceeds
   [max] bytes. *)
Definition too_big (max : Z) (written : list frame) : Prop :=
  exists before f later done rest,
    written = before ++ f :: later /\ message_sequence before done rest /\
    (max < Z.of_nat (message_size rest + length (f_data f)))%Z.

(* The same with compression: one of the frames written, before or after compression, is too big. *)
Definition too_big_compressed (max : Z) (written : list sent) : Prop :=
  exists before x later done rest g key,
    written = before ++ x :: later /\ message_sequence (map o_frame before) done rest /\
    layout (on_wire g key) (o_bytes x) /\
    (max < Z.of_nat (message_size rest + Nat.max (length (f_data (o_frame x))) (length (f_data g))))%Z.

(* When max_length isn't enough, zlib stops there: it doesn't fail and it doesn't consume all its input. *)
Definition truncates (zl : zlib) (sync : z_comp zl -> z_decomp zl -> Prop) : Prop :=
  forall c d data c1 x c2 y limit,
    sync c d -> z_compress zl c data = (c1, x) -> z_flush zl c1 = (c2, y) -> (0 < limit < lenZ data)%Z ->
    exists d' out, z_decompress zl d (x ++ y) limit = (d', Ok out) /\ z_unconsumed zl d' <> [].

(* A call to send() raises an exception. *)
Definition send_raises {E} (X : ext_ops E) (cfg : config) (exts : list E) (ls : list label) : Prop :=
  exists before i a after st st' m e,
    ls = before ++ LUser i a :: after /\ exec X cfg (initial exts) before = Some st /\ step X cfg st (LUser i a) = Some st' /\
    nth_error (calls ls) i = Some (CallSend m) /\ nth_error (p_users st') i = Some (UDone (RRaise e), false).

(* The reasons of end B to fail the connection with this code: its keepalive times out or one of its
   calls to send() raises an exception; or it is told to do so, for example by a server which shuts down;
   or end A sent a message, or a ping, that is larger than the limit of end B; [big max] says that it sent
   something larger than [max] bytes. *)
Definition justified {E} (X : ext_ops E) (cfgB : config) (extsB : list E) (lsB : list label) (big : Z -> Prop)
  (code : Z) : Prop :=
  (code = 1011%Z /\ (In (LK Timeout) lsB \/ send_raises X cfgB extsB lsB)) \/
  In (LFail code) lsB \/
  (code = 1009%Z /\ exists max, c_max_size cfgB = Some max /\ big max).

(* An end gives this code to close(), or it is told to fail the connection with this code. *)
Definition gives (ls : list label) (code : Z) : Prop :=
  (exists i reason, nth_error (calls ls) i = Some (CallClose code reason)) \/ In (LFail code) ls.
