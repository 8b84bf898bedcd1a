(* Vocabulary for the close codes at the two ends of a connection (asyncio API). *)
From Verif Require Import Base.Prelude Model.Streams Model.Frames Model.LegacyFraming Model.LegacyProtocol Spec.Asyncio.
Local Open Scope N_scope.

(* The bytes received from the transport *)
Definition incoming (ls : list label) : bytes :=
  flat_map (fun l => match l with LData d => d | _ => [] end) ls.
(* The transport hands over the bytes written at the other end, in order: what has been received is the
   beginning of what has been written. *)
Definition in_transit (written : list sent) (got : bytes) : Prop :=
  exists in_flight, flat_map o_bytes written = got ++ in_flight.

(* Executions of the two ends of a connection: at any point, either end makes a step, and receives only
   bytes that the other end has already written. *)
Inductive connected {E} (X : ext_ops E) (cfgA : config) (extsA : list E) (cfgB : config) (extsB : list E)
  : list label -> conn E -> list label -> conn E -> Prop :=
| connected_start : connected X cfgA extsA cfgB extsB [] (initial extsA) [] (initial extsB)
| connected_A lsA stA lsB stB l stA' :
    connected X cfgA extsA cfgB extsB lsA stA lsB stB -> step X cfgA stA l = Some stA' ->
    in_transit (p_out stB) (incoming (lsA ++ [l])) -> connected X cfgA extsA cfgB extsB (lsA ++ [l]) stA' lsB stB
| connected_B lsA stA lsB stB l stB' :
    connected X cfgA extsA cfgB extsB lsA stA lsB stB -> step X cfgB stB l = Some stB' ->
    in_transit (p_out stA) (incoming (lsB ++ [l])) -> connected X cfgA extsA cfgB extsB lsA stA (lsB ++ [l]) stB'.

(* A frame sent by a call to close() with this code and this reason *)
Definition by_close (ls : list label) (x : sent) (code : Z) (reason : str) : Prop :=
  close_frame (o_frame x) code reason /\
  exists i, o_by x = ByCall i /\ nth_error (calls ls) i = Some (CallClose code reason).
(* A frame sent because the connection is failed: there is no reason; the code is one that the library
   chooses, or the one chosen by who fails the connection, for example a server which shuts down. *)
Definition by_failure (ls : list label) (x : sent) (code : Z) (reason : str) : Prop :=
  close_frame (o_frame x) code reason /\ o_by x = ByFailure /\ reason = [] /\
  (code = 1002%Z \/ code = 1007%Z \/ code = 1009%Z \/ code = 1011%Z \/ In (LFail code) ls).
Definition chosen (ls : list label) (x : sent) (code : Z) (reason : str) : Prop :=
  by_close ls x code reason \/ by_failure ls x code reason.
(* A frame sent in response to the close frame received, with the same payload *)
Definition in_response (inp : list frame) (x : sent) (code : Z) (reason : str) : Prop :=
  close_frame (o_frame x) code reason /\ o_by x = ByTransfer /\
  exists f, In f inp /\ close_frame f code reason /\ f_data f = f_data (o_frame x).

(* The code and the reason at end B, in terms of what happens at end A: either B receives no close frame;
   or they are those in the last frame written by A, which A has chosen, or which is the response of A to
   the last frame written by B, which B has chosen. *)
Definition from_peer {E} (lsA : list label) (stA : conn E) (lsB : list label) (stB : conn E) (code : Z) (reason : str) : Prop :=
  (code = 1006%Z /\ reason = [] /\ forall f, In f (p_in stB) -> forall c r, ~ close_frame f c r) \/
  exists before x, p_out stA = before ++ [x] /\
    (chosen lsA x code reason \/
     (close_frame (o_frame x) code reason /\ o_by x = ByTransfer /\
      exists before' y, p_out stB = before' ++ [y] /\ chosen lsB y code reason)).

(* The two ends report the same code and the same reason, unless an end receives no close frame, or each
   end reports what the other one has chosen. *)
Definition agree {E} (lsA : list label) (stA : conn E) (lsB : list label) (stB : conn E)
  (codeA : Z) (reasonA : str) (codeB : Z) (reasonB : str) : Prop :=
  (codeA = codeB /\ reasonA = reasonB) \/
  (codeA = 1006%Z /\ forall f, In f (p_in stA) -> forall c r, ~ close_frame f c r) \/
  (codeB = 1006%Z /\ forall f, In f (p_in stB) -> forall c r, ~ close_frame f c r) \/
  exists x y, In x (p_out stA) /\ chosen lsA x codeB reasonB /\ In y (p_out stB) /\ chosen lsB y codeA reasonA.
